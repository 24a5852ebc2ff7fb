"""One-off: split properties whose true part and refuted part were mixed."""
import re,json,glob
ren={
'C12_preserve_reads_fresh_partial':'C83_preserve_reads_fresh_partial','C12_preserve_reads_fresh_refuted':'C83_preserve_reads_fresh_refuted',
'C14_use_spt_error_reported_refuted':'C84_use_spt_error_reported_refuted',
'C18_subsample_components_partial':'C85_subsample_components_partial','C18_subsample_components_refuted':'C85_subsample_components_refuted',
'C34_reflected_operations_refuted':'C86_reflected_operations_refuted',
'C41_order_of_ells_refuted':'C87_order_of_ells_refuted','C41_negative_refuted':'C87_negative_refuted','C41_ells_follow_when_increasing':'C87_ells_follow_when_increasing_partial',
'C65_lbfgs_constrained_swapped_refuted':'C88_lbfgs_constrained_swapped_refuted',
'C70_crash_state':'C89_crash_state_partial','C70_crash_refuted':'C89_crash_refuted','C70_power_leaves_model_alone_partial':'C70_power_leaves_model_alone',
'C71_concurrent_call_undistorted_refuted':'C90_concurrent_call_undistorted_refuted',
'C78_peak_stale_refuted':'C91_peak_stale_refuted','C78_burnin_forgotten_refuted':'C91_burnin_forgotten_refuted',
'C76_finite_difference_partial':'C92_finite_difference_partial','C76_finite_difference_prior_refuted':'C92_finite_difference_prior_refuted',
'C75_default_mode_refuted':'C93_default_mode_refuted',
'C62_every_chain_is_told':'C94_every_chain_is_told_partial','C62_stops_when_told':'C94_stops_when_told_partial','C62_same_reason_partial':'C94_same_reason_partial','C62_all_chains_stop_partial':'C94_all_chains_stop_partial','C62_without_tests_nobody_waits':'C94_without_tests_nobody_waits_partial','C62_waiting_chain_blocked_refuted':'C94_waiting_chain_blocked_refuted','C62_convergence_can_block_refuted':'C94_convergence_can_block_refuted','C62_different_reasons_refuted':'C94_different_reasons_refuted',
'C55_out_of_bounds_refuted':'C95_out_of_bounds_refuted','C55_refuted':'C95_chi2_refuted','C55_chi2_in_bounds_partial':'C55_chi2_in_bounds',
'C53_attribution_partial':'C96_attribution_partial','C53_suffix_tag_refuted':'C96_suffix_tag_refuted','C53_quoted_characters_refuted':'C96_quoted_characters_refuted',
'C67_concurrent_same_base_refuted':'C97_concurrent_same_base_refuted',
'C24_alpha_par_partial':'C98_alpha_par_partial','C24_alpha_par_refuted':'C98_alpha_par_refuted',
'C21_fcB_partial':'C99_fcB_partial','C21_fsB_partial':'C99_fsB_partial','C21_f_so_partial':'C99_f_so_partial','C21_fsB_refuted':'C99_fsB_refuted','C21_fcB_refuted':'C99_fcB_refuted','C21_f_so_refuted':'C99_f_so_refuted',
'C68_order_independent_partial':'C68_order_independent',
}
pat=re.compile(r'\b('+'|'.join(map(re.escape,ren))+r')\b')
def sub(s): return pat.sub(lambda m:ren[m.group(1)],s)
if __name__=='__main__':
    import sys
    fs=sys.argv[1:] or sorted(glob.glob('/verif/rocq/theories/*.v'))+['/verif/seeded/LOG.jsonl','/verif/tools/overrides.json']
    for f in fs:
        s=open(f).read(); t=sub(s)
        if t!=s: open(f,'w').write(t); print(f)
