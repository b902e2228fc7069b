(** Model of a stage of the user's own (a plugin) beside the seven default stages.  Definitions only. *)
From Verif Require Import Base BuilderModel DefaultModel.
Open Scope string_scope.

(** README.md:36, example_plugin.py:36-45: one more class *)
Definition PLUGIN : sid := 7.
(** example_plugin.py:77-90: the seven default classes and the plugin, whatever the plugin declares *)
Definition plugin_decls (pin pout : list arg) : decls := {|
  d_in s := nth s [preprocessing_in; prelim_in; sifted_in; pilot_in; pythia_in; cloister_in; trace_in; pin] [];
  d_out s := nth s [preprocessing_out; prelim_out; sifted_out; pilot_out; pythia_out; cloister_out; trace_out; pout] [] |}.

(** example_plugin.py:23-29 *)
Definition example_plugin_in : list arg := [
  ("accuracy", TFloats); ("precision", TFloats); ("recall", TFloats); ("selection0", TInts); ("selection1", TInts);
  ("pythia_summary", TFrame)].
(** an annotation none of the default stages uses: str *)
Definition TStr := TPlain 31.
(** example_plugin.py:32-34 *)
Definition example_plugin_out : list arg := [("blank", TStr)].
