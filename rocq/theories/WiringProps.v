(** C120: values keep their names on the way into and out of the computations
    of the six stages after preprocessing.

    Specification, with [e n] the value that the scope [e] has under the name
    [n]: [named ns e e'] says that [e] and [e'] have the same value under each
    of the names [ns]. *)
From Coq Require Import List String Bool Arith Lia.
From Verif Require Import WiringModel WiringProofs.
Import ListNotations.
Open Scope string_scope.
Open Scope list_scope.

Section Names.
Variable V : Type.
Variable unbound : V.
Notation env := (string -> V).

Definition named (ns : list string) (e e' : env) : Prop :=
  forall n, In n ns -> e n = e' n.

Local Ltac names :=
  let n := fresh "n" in let Hn := fresh "Hn" in
  intros n Hn; cbn [In] in Hn;
  repeat (destruct Hn as [<- | Hn]; [congruence |]); contradiction.

Local Ltac finish := repeat apply conj; try congruence; names.

Local Ltac last_call :=
  match goal with
  | |- context [bind ?u ?ts ?vs = Some _] =>
    let e := fresh "out" in let E := fresh "E" in let M := fresh "M" in
    let U := fresh "U" in
    destruct (bind_ok u ts vs) as (e & E & M & U); [reflexivity | reflexivity |];
    exists e; split; [exact E |]; clear E; unfold vals in M; cbn [map] in M;
    injection M; intros; clear M
  end.

(** PRELIM: the first computation is given the stage's inputs under their own
    names, twice where it has both an attribute and a parameter; the second one
    the results of the first, and the inputs for what the first does not
    compute; each output is the result of that name, except that the labels are
    returned as instlabels and not as inst_labels. *)
Theorem C120_prelim_names : forall (body filter : env -> env -> env) inputs,
  exists self q self' q' out,
    run_prelim unbound body filter inputs = Some out /\
    named ["x"; "y"; "x_raw"; "y_raw"; "s"; "inst_labels"] self inputs /\
    self "prelim_opts" = inputs "prelim_options" /\
    self "selvars_opts" = inputs "selvars_options" /\
    named ["x"; "y"] q inputs /\ q "prelim_opts" = inputs "prelim_options" /\
    let first := body self q in
    named ["x"; "y"; "y_bin"; "y_best"; "p"; "num_good_algos"; "beta"] q' first /\
    named ["inst_labels"; "x_raw"; "y_raw"; "s"] q' inputs /\
    q' "selvars_opts" = inputs "selvars_options" /\
    named ["x"; "y"] self' first /\
    named ["x_raw"; "y_raw"; "s"; "inst_labels"] self' inputs /\
    self' "prelim_opts" = inputs "prelim_options" /\
    self' "selvars_opts" = inputs "selvars_options" /\
    let second := filter self' q' in
    named ["med_val"; "iq_range"; "hi_bound"; "lo_bound"; "min_x"; "lambda_x";
           "mu_x"; "sigma_x"; "min_y"; "lambda_y"; "sigma_y"; "mu_y"] out first /\
    named ["x"; "y"; "x_raw"; "y_raw"; "y_bin"; "y_best"; "p"; "num_good_algos";
           "beta"; "data_dense"; "s"] out second /\
    out "instlabels" = second "inst_labels" /\
    out "inst_labels" = unbound.
Proof.
  intros body filter inputs.
  unfold run_prelim, prelim, prelim_init.
  next_call. next_call. next_attributes. next_call.
  unfold prelim_return, vals at 1; cbn [map].
  match goal with |- context [body ?s ?q] => exists s, q; set (first := body s q) in * end.
  next_call. next_call. next_attributes. next_call. unfold filter_return. 
  match goal with |- context [filter ?s ?q] => exists s, q; set (second := filter s q) in * end.
  next_call. last_call.
  cbn beta zeta.
  assert (out "inst_labels" = unbound) by
    match goal with U : forall n, _ -> out n = unbound |- _ => apply U; reflexivity end.
  match goal with
  | U : forall n, _ -> ?e n = ?e0 n |- _ =>
    assert (K : map e ["med_val"; "iq_range"; "hi_bound"; "lo_bound"; "min_x";
                       "lambda_x"; "mu_x"; "sigma_x"; "min_y"; "lambda_y";
                       "sigma_y"; "mu_y"]
              = map e0 ["med_val"; "iq_range"; "hi_bound"; "lo_bound"; "min_x";
                       "lambda_x"; "mu_x"; "sigma_x"; "min_y"; "lambda_y";
                       "sigma_y"; "mu_y"])
      by (cbn [map]; rewrite !U by reflexivity; reflexivity)
  end.
  cbn [map] in K. injection K; intros; clear K.
  finish.
Qed.

(** SIFTED: the attributes and parameters of the computation are the stage's
    inputs; everything but the features is returned as it came in; the features,
    their labels and the statistics are those of the computation, None where the
    step that computes them was skipped. *)
Theorem C120_sifted_names : forall none (body : env -> env -> sift_step V) inputs,
  exists self q out,
    run_sifted unbound none body inputs = Some out /\
    named ["x"; "y"; "y_bin"; "x_raw"; "y_raw"; "beta"; "num_good_algos"; "y_best";
           "p"; "inst_labels"; "s"; "feat_labels"; "parallel_options"] self inputs /\
    self "opts" = inputs "sifted_options" /\
    q "opts_selvars" = inputs "selvars_options" /\
    q "data_dense" = inputs "data_dense" /\
    named ["y"; "y_bin"; "x_raw"; "y_raw"; "beta"; "num_good_algos"; "y_best"; "p";
           "inst_labels"; "s"] out inputs /\
    let r := body self q in
    out "selvars" = ss_selvars r /\ out "idx" = ss_idx r /\
    match ss_site r with
    | few_features =>
        named ["x"; "feat_labels"] out inputs /\
        (forall n, In n ["rho"; "pval"; "silhouette_scores"; "clust"] -> out n = none)
    | few_correlated =>
        out "x" = ss_x_aux r /\ out "feat_labels" = ss_kept r /\
        out "rho" = ss_rho r /\ out "pval" = ss_pval r /\
        out "silhouette_scores" = none /\ out "clust" = none
    | all_steps =>
        out "x" = ss_x_aux r /\ out "feat_labels" = ss_kept r /\
        out "rho" = ss_rho r /\ out "pval" = ss_pval r /\
        out "silhouette_scores" = ss_scores r /\ out "clust" = ss_clust r
    end.
Proof.
  intros none body inputs.
  unfold run_sifted, sifted_init.
  next_kw. next_call. next_attributes. next_kw. next_call.
  unfold sifted_body. next_attributes.
  match goal with |- context [body ?s ?q] => exists s, q; set (r := body s q) in * end.
  destruct (ss_site r) eqn:Hs; last_call; cbn beta zeta; finish.
Qed.

(** PILOT: the computation is given the inputs; each output is the variable of
    that name (X0 the starting points x0, the matrices a, z, c and b and the
    summary those called out_a, out_z, out_c, out_b and summary), except that
    alpha is converted to float16 when both it and x0 are set. *)
Theorem C120_pilot_names : forall (body : env -> env) starts half inputs,
  exists q out,
    run_pilot unbound body starts half inputs = Some out /\
    named ["x"; "y"; "feat_labels"] q inputs /\
    q "options" = inputs "pilot_options" /\
    let l := body q in
    named ["eoptim"; "perf"; "error"; "r2"] out l /\
    out "X0" = l "x0" /\ out "a" = l "out_a" /\ out "z" = l "out_z" /\
    out "c" = l "out_c" /\ out "b" = l "out_b" /\
    out "pilot_summary" = l "summary" /\
    out "alpha" = if starts l then half (l "alpha") else l "alpha".
Proof.
  intros body starts half inputs.
  unfold run_pilot. next_call.
  match goal with |- context [body ?q] => exists q; set (l := body q) in * end.
  cbn zeta. destruct (starts l); last_call;
    repeat match goal with
           | H : _ = put _ _ _ _ |- _ =>
             first [rewrite put_same in H
                   | rewrite put_other in H by discriminate]
           end;
    finish.
Qed.

(** CLOISTER. *)
Theorem C120_cloister_names : forall (body : env -> env) inputs,
  exists q out,
    run_cloister unbound body inputs = Some out /\
    named ["x"; "a"] q inputs /\ q "options" = inputs "cloister_options" /\
    named ["z_edge"; "z_ecorr"] out (body q).
Proof.
  intros body inputs.
  unfold run_cloister. next_call.
  match goal with |- context [body ?q] => exists q; set (l := body q) in * end.
  last_call. finish.
Qed.

(** PYTHIA: the performance it works on, called y, is the input y_raw; the
    selection is made with the precisions; each output is the variable of that
    name. But in the summary the accuracies stand for the precisions and the
    precisions for the accuracies. *)
Theorem C120_pythia_names :
  forall (body : env -> env) (choose : env -> V * V) (summarise : env -> V) inputs,
  exists q sel table out,
    run_pythia unbound body choose summarise inputs = Some out /\
    named ["z"; "y_bin"; "y_best"; "algo_labels"; "parallel_options"] q inputs /\
    q "y" = inputs "y_raw" /\ q "opts" = inputs "pythia_options" /\
    let l := body q in
    named ["nalgos"; "y_hat"] sel l /\ sel "y_bin" = inputs "y_bin" /\
    sel "precision" = l "precision_record" /\
    named ["nalgos"; "y_hat"; "box_consnt"; "k_scale"] table l /\
    named ["algo_labels"; "y_bin"; "y_best"] table inputs /\
    table "y" = inputs "y_raw" /\
    named ["selection0"; "selection1"] table out /\
    table "recall" = out "recall" /\
    table "precision" = out "accuracy" /\ table "accuracy" = out "precision" /\
    named ["mu"; "sigma"; "w"; "cp"; "svm"; "cvcmat"; "y_sub"; "y_hat";
           "box_consnt"; "k_scale"] out l /\
    out "pr0_sub" = l "pr0sub" /\ out "pr0_hat" = l "pr0hat" /\
    out "accuracy" = l "accuracy_record" /\
    out "precision" = l "precision_record" /\
    out "recall" = l "recall_record" /\
    (out "selection0", out "selection1") = choose sel /\
    out "pythia_summary" = summarise table.
Proof.
  intros body choose summarise inputs.
  unfold run_pythia. next_call.
  match goal with |- context [body ?q] => exists q; set (l := body q) in * end.
  cbn zeta.
  match goal with |- context [fun n => if existsb (String.eqb n) ?ks then ?a n else l n] =>
    set (l' := fun n => if existsb (String.eqb n) ks then a n else l n) in * end.
  next_call.
  match goal with |- context [choose ?q] => exists q; set (r := choose q) in * end.
  next_call. unfold summary_params. next_call.
  match goal with |- context [summarise ?q] => exists q; set (t := summarise q) in * end.
  last_call.
  repeat match goal with
         | H : _ = put _ _ _ _ |- _ =>
           first [rewrite put_same in H | rewrite put_other in H by discriminate]
         end.
  repeat match goal with
         | U : forall n, _ -> ?e n = l' n, H : _ = ?e _ |- _ =>
           rewrite U in H by reflexivity
         end.
  unfold l' in *. cbn [existsb String.eqb Ascii.eqb Bool.eqb orb] in *.
  assert ((out "selection0", out "selection1") = r)
    by (rewrite (surjective_pairing r); congruence).
  finish.
Qed.

(** TRACE: with use_sim the flags and choices it works on are PYTHIA's y_hat and
    selection0, otherwise y_bin and p; everything else is the input of that
    name, and each output the variable of that name. *)
Theorem C120_trace_names : forall use_sim (body : env -> env) inputs,
  exists self out,
    run_trace unbound use_sim body inputs = Some out /\
    named ["z"; "beta"; "algo_labels"] self inputs /\
    self "opts" = inputs "trace_options" /\
    self "parallel_opts" = inputs "parallel_options" /\
    (if use_sim (inputs "trace_options")
     then self "y_bin" = inputs "y_hat" /\ self "p" = inputs "selection0"
     else self "y_bin" = inputs "y_bin" /\ self "p" = inputs "p") /\
    named ["space"; "good"; "best"; "hard"] out (body self) /\
    out "trace_summary" = body self "final_df".
Proof.
  intros use_sim body inputs.
  unfold run_trace, trace, trace_init.
  destruct (use_sim _); next_call; next_call; next_attributes;
  (match goal with |- context [body ?q] => exists q; set (l := body q) in * end;
   cbn zeta;
   match goal with |- context [bind_kw ?u ?ts ?vs] =>
     let E := fresh "E" in let M := fresh "M" in let out := fresh "out" in
     destruct (bind_kw_ok u ts vs) as (out & E & M); try reflexivity;
     exists out; split; [exact E |]; clear E; cbn [map fst snd] in M;
     injection M; intros; clear M
   end; finish).
Qed.

End Names.

(** A case in which all values differ: a value is the text that says where it
    comes from. *)
Example C120_met :
  option_map (fun out => map out ["x"; "y_bin"; "sigma_y"; "mu_y"; "instlabels"])
    (run_prelim "unbound"%string
      (fun self q n => "first " ++ n)%string
      (fun self q n => "second " ++ n ++ " of " ++ q n)%string
      (fun n => "input " ++ n)%string)
  = Some ["second x of first x"; "second y_bin of first y_bin"; "first sigma_y";
          "first mu_y"; "second inst_labels of input inst_labels"]%string.
Proof. vm_compute. reflexivity. Qed.

Example C120_met_pythia :
  option_map (fun out => map out ["mu"; "accuracy"; "selection1"; "pythia_summary"])
    (run_pythia "unbound"%string
      (fun q n => "local " ++ n)%string
      (fun q => ("0 by " ++ q "precision", "1 by " ++ q "precision"))%string
      (fun q => q "accuracy" ++ " for accuracy of " ++ q "y")%string
      (fun n => "input " ++ n)%string)
  = Some ["local mu"; "local accuracy_record"; "1 by local precision_record";
          "local precision_record for accuracy of input y_raw"]%string.
Proof. vm_compute. reflexivity. Qed.

Example C120_met_trace :
  option_map (fun out => map out ["good"; "trace_summary"])
    (run_trace "unbound"%string (fun _ => true)
      (fun self n => n ++ " of " ++ self "y_bin" ++ ", " ++ self "p")%string
      (fun n => "input " ++ n)%string)
  = Some ["good of input y_hat, input selection0";
          "final_df of input y_hat, input selection0"]%string.
Proof. vm_compute. reflexivity. Qed.

Print Assumptions C120_prelim_names.
Print Assumptions C120_sifted_names.
Print Assumptions C120_pilot_names.
Print Assumptions C120_cloister_names.
Print Assumptions C120_pythia_names.
Print Assumptions C120_trace_names.
