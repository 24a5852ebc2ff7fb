{
 "cache5": {
  "skip": true
 },
 "cache13": {
  "skip": true
 },
 "cache1": {
  "tightened": [
   "C01_cache_never_stale",
   "C01_cache_never_stale_history",
   "C02_no_recompute",
   "C03_delete_property_partial",
   "C05_real_classes_never_stale_partial",
   "C11_first_load_partial",
   "C83_preserve_reads_fresh_partial"
  ],
  "comment": "C01 still proved although its claim was false: its notion of dependency was the model's own ancestor function. S_Cache.declared/creatable now define dependency independently of the model; see cache1-retest."
 },
 "cache1-retest": {
  "comment": "after tightening: caught"
 },
 "cache5b": {
  "comment": "cache5 redone so that statements typecheck"
 },
 "cache13b": {
  "comment": "cache13 redone so that statements typecheck"
 },
 "ap3": {
  "tightened": [
   "C18_power_with_AP",
   "C72_ap_of_the_sum"
  ],
  "comment": "the volume factor was taken from the model's helper; the statements now spell it out; see ap3-retest."
 },
 "ap3-retest": {
  "comment": "after tightening: caught"
 },
 "key6": {
  "claim": "none: behaviourally equivalent edit",
  "comment": "equivalent mutant: keys stay distinct, no claim is false, no theorem should fail"
 },
 "gd14": {
  "tightened": [
   "C70_gradient_leaves_model_alone"
  ],
  "comment": "no theorem failed: the claim that a gradient leaves the model as it was had no theorem; added C70_gradient_leaves_model_alone; see gd14-retest"
 },
 "gal8": {
  "tightened": [
   "C18_subsample_values"
  ],
  "comment": "only C99_fsB_partial failed, by accident of its script; added C18_subsample_values which states the subsample spectra; see gal8-retest"
 },
 "ctx7": {
  "comment": "edit repairs the code: only the refutation fails, as it should"
 },
 "cache8": {
  "comment": "edit repairs the code: only the refutations fail, as they should"
 },
 "cache12": {
  "comment": "edit repairs the code: only the refutation fails, as it should"
 },
 "lb13": {
  "comment": "first attempt did not match the text; redone"
 },
 "pf10": {
  "claim": "C53: a line that is not key = value is refused",
  "tightened": [
   "C53_line_without_equals_refused"
  ],
  "comment": "no theorem failed; added C53_line_without_equals_refused; see pf10-retest"
 },
 "pf5": {
  "tightened": [
   "C52_exact",
   "C52_every_string_covered",
   "C52_malformed_raises"
  ],
  "comment": "only the example failed: the specification of a bare name used the model's own var_char. S_ParamFile.name_chars now lists the characters; see pf5-retest"
 },
 "mc7": {
  "tightened": [
   "C94_verdict_takes_effect_partial"
  ],
  "comment": "only a refutation failed: no theorem said that a positive verdict stops the chains; added; see mc7-retest"
 },
 "pr4": {
  "claim": "C51: scaling maps the prior's range to [-1,1]",
  "tightened": [
   "C51_prior_maps_to_unit_range"
  ],
  "comment": "round trips still held; added C51_prior_maps_to_unit_range; see pr4-retest"
 },
 "re10": {
  "comment": "edit repairs the code: only the refutation fails, as it should"
 },
 "an2": {
  "tightened": [
   "C139_several_files",
   "C139_single_file",
   "C139_best_exists"
  ],
  "comment": "survived at first: the specification shared the mean with the model; the mean is now stated separately (mean_lkl)"
 },
 "an1": {
  "tightened": [
   "C139_several_files",
   "C139_single_file",
   "C139_best_exists"
  ],
  "comment": "survived at first: the specification shared the mean with the model; the mean is now stated separately (mean_lkl)"
 },
 "b13_31": {
  "skip": true
 },
 "b14_38": {
  "tightened": [
   "C155_dispersions_are_the_relations_or_at_the_nearest_end"
  ],
  "comment": "C155's session theorem remained true of the edited program (only its proof script broke): it compares with a new model that has the same fallback. New theorem states the fallback."
 },
 "b14_00": {
  "claim": "none: lnprior still rejects values outside a uniform prior (equivalent edit; only a helper lemma's script broke)"
 },
 "b14_10": {
  "claim": "log prior of a walker outside the bounds would be finite; walkers still allowed"
 },
 "b14_35": {
  "claim": "none: r and r' have the same parameters (equivalent; proof script broke)"
 },
 "b15_17": {
  "tightened": [
   "C159_anisotropic_integrals_are_over_all_wavevectors"
  ],
  "comment": "the first version of C159 covered only the scalar entries; this theorem was added for the edit"
 },
 "b15_18": {
  "tightened": [
   "C159_odd_anisotropic_integrals_are_over_all_wavevectors"
  ],
  "comment": "added for the edit"
 },
 "b15_36": {
  "comment": "equivalent for the claim (a single point); the proof script still depends on the case split"
 },
 "b16_36": {
  "claim": "C164",
  "tightened": [
   "C164_kurtosis_is_the_moment"
  ],
  "comment": "survived the rescaling theorems, which hold for any prefactor; a theorem giving the kurtosis as the moment of the spectrum was added and now catches it"
 },
 "b17_14": {
  "comment": "equivalent program: every model of the container is created by model_set8, which already synchronises the driver, so the later check is dead code for every history C168 quantifies over"
 },
 "b17_28": {
  "tightened": [
   "C173_fits_never_stale"
  ],
  "comment": "survived because the modelled table did not remember its k range; the model was refined (x_tab carries the range) and the mutant is now caught, see b17b_1"
 },
 "b18_12": {
  "skip": true
 },
 "b18_31": {
  "comment": "claim unaffected: to_info writes the same (latest) value for every occurrence of a repeated name"
 },
 "b18_48": {
  "tightened": [
   "C193_best_file_found"
  ],
  "comment": "largest_score used the scores of the model; now stated with stands_for of S_Run"
 },
 "b18b_01": {
  "comment": "after tightening"
 },
 "b19_41": {
  "tightened": [
   "C196_specification_partial"
  ],
  "comment": "survived the first run; C196_specification_partial was added and fails"
 },
 "b19_42": {
  "tightened": [
   "C196_specification_partial"
  ],
  "comment": "survived the first run; C196_specification_partial was added and fails"
 },
 "b19b_41": {
  "comment": "after tightening"
 },
 "b19b_42": {
  "comment": "after tightening"
 },
 "b20_27": {
  "tightened": [
   "C56_several_identifiers_refused"
  ],
  "comment": "still proved at first; C56 only spoke of measurements with one identifier or a decorator. The new theorem refuses several identifiers without decorator."
 },
 "b20_55": {
  "tightened": [
   "C68_converged_both_sides"
  ],
  "comment": "still proved at first; the convergence criterion had no theorem of its own."
 },
 "b20_18": {
  "tightened": [
   "C27_default_coverage"
  ],
  "comment": "still proved at first; an unregistered derivative falls back to finite differences. C27_default_coverage now says exactly which default parameters have an analytic gradient."
 },
 "b20_14": {
  "comment": "not false of the edited program: the gradient by Nsat_mult falls back to finite differences in the code too, since the model parameter b1_cB that depends on it is not registered (C27_default_coverage)."
 },
 "b20_16": {
  "comment": "not false of the edited table: b1sigma8 is not a model parameter, so the power does not depend on it whatever its expression names."
 },
 "b20_46": {
  "comment": "not false: True and 1 are equal in Python, and C09 identifies calls up to Python equality (types only with typed=True)."
 },
 "b21_01": {
  "skip": true
 },
 "b21_03": {
  "skip": true
 },
 "b22_03": {
  "comment": "harmless for the value: reading a parameter puts it into the symbol table; the proofs follow the code and fail"
 },
 "b22_04": {
  "comment": "harmless for the value: parameters are evaluated again; the proofs follow the code and fail"
 },
 "b22_08": {
  "comment": "harmless for the value after a complete update; the proofs follow the code and fail"
 },
 "b22_09": {
  "comment": "no wrong value, but a recursion limit that real constraints exceed"
 },
 "b23_30": {
  "tightened": [
   "C150_several_named_keywords_partial"
  ],
  "comment": "equivalent as long as every keyword is given once, as Python enforces; the new theorem states several named keywords at once"
 },
 "b23_16": {
  "comment": "equivalent inside the grid except for the cell chosen at a node; the proofs follow the code and fail"
 },
 "b23_25": {
  "comment": "the answer is the same, only recomputed"
 }
}