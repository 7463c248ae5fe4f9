-Q theories Verif
theories/Base.v
theories/Store_model.v
theories/Store_spec.v
theories/Store_proofs.v
theories/Store_props.v
theories/Py.v
theories/Py_proofs.v
theories/Trial_model.v
theories/Trial_spec.v
theories/Trial_proofs.v
theories/Trial_props.v
theories/Eval_model.v
theories/Eval_spec.v
theories/Eval_proofs.v
theories/Eval_props.v
theories/Fs_model.v
theories/Fs_spec.v
theories/Fs_proofs.v
theories/Fs_props.v
theories/Repo_model.v
theories/Repo_spec.v
theories/Repo_proofs.v
theories/Repo_props.v
theories/Init_model.v
theories/Init_spec.v
theories/Init_proofs.v
theories/Init_props.v
theories/Runtime_model.v
theories/Runtime_spec.v
theories/Runtime_world.v
theories/Runtime_proofs.v
theories/Claim_proofs.v
theories/Once_proofs.v
theories/Each_proofs.v
theories/Share_proofs.v
theories/Seed_proofs.v
theories/Overshoot_proofs.v
theories/Runtime_props.v
theories/Solo_proofs.v
theories/Limit_spec.v
theories/Limit_proofs.v
theories/Cost_proofs.v
theories/Error_proofs.v
theories/Limit_props.v
theories/Status_model.v
theories/Status_spec.v
theories/Status_proofs.v
theories/Status_props.v
theories/Ladder_model.v
theories/Ladder_spec.v
theories/Ladder_proofs.v
theories/Ladder_props.v
theories/Oldest_proofs.v
theories/Oldest_props.v
theories/Sh_model.v
theories/Sh_spec.v
theories/Sh_proofs.v
theories/Sh_hist_proofs.v
theories/Sh_table_proofs.v
theories/Sh_async_proofs.v
theories/Sh_sync_proofs.v
theories/Sh_bracket_proofs.v
theories/Sh_full_proofs.v
theories/Sh_play_proofs.v
theories/Sh_props.v
theories/Mf_model.v
theories/Mf_spec.v
theories/Mf_proofs.v
theories/Mf_update_proofs.v
theories/Mf_reduce_proofs.v
theories/Mf_curve_proofs.v
theories/Mf_props.v
theories/Pb_model.v
theories/Pb_spec.v
theories/Pb_proofs.v
theories/Pb_inc_proofs.v
theories/Pb_args_proofs.v
theories/Pb_props.v
theories/Pb_decay_props.v
theories/Dom_model.v
theories/Dom_spec.v
theories/Dom_proofs.v
theories/Dom_cast_proofs.v
theories/Dom_props.v
theories/Enc_model.v
theories/Enc_spec.v
theories/Enc_proofs.v
theories/Enc_round_proofs.v
theories/Enc_app_proofs.v
theories/Enc_props.v
theories/Param_model.v
theories/Param_spec.v
theories/Param_proofs.v
theories/Param_int_proofs.v
theories/Param_cat_proofs.v
theories/Param_more_proofs.v
theories/Param_props.v
theories/Space_model.v
theories/Space_spec.v
theories/Space_proofs.v
theories/Space_more_proofs.v
theories/Space_ops_proofs.v
theories/Space_eq_proofs.v
theories/Space_mut_proofs.v
theories/Space_grid_proofs.v
theories/Space_ask_proofs.v
theories/Space_props.v
theories/Space_more_props.v
theories/Ifbo_model.v
theories/Ifbo_spec.v
theories/Ifbo_adjust_proofs.v
theories/Ifbo_proofs.v
theories/Ifbo_cast_proofs.v
theories/Ifbo_run_proofs.v
theories/Ifbo_new_proofs.v
theories/Ifbo_props.v
theories/Ifbo_run_props.v
theories/Prior_model.v
theories/Prior_spec.v
theories/Prior_sample_proofs.v
theories/Prior_logprob_proofs.v
theories/Prior_center_proofs.v
theories/Prior_weighted_proofs.v
theories/Prior_more_proofs.v
theories/Prior_props.v
theories/Prior_more_props.v
theories/Set_model.v
theories/Set_spec.v
theories/Set_flat_proofs.v
theories/Set_proofs.v
theories/Set_search_proofs.v
theories/Set_props.v
theories/Yam_model.v
theories/Yam_spec.v
theories/Yam_round_proofs.v
theories/Yam_text_proofs.v
theories/Yam_proofs.v
theories/Yam_props.v
theories/Cfg_model.v
theories/Cfg_spec.v
theories/Cfg_text_proofs.v
theories/Cfg_sample_proofs.v
theories/Cfg_prior_proofs.v
theories/Cfg_props.v
theories/Chain_model.v
theories/Chain_spec.v
theories/Chain_proofs.v
theories/Chain_props.v
theories/Cli_model.v
theories/Cli_spec.v
theories/Cli_text_proofs.v
theories/Cli_proofs.v
theories/Cli_show_proofs.v
theories/Cli_props.v
theories/Tb_model.v
theories/Tb_spec.v
theories/Tb_proofs.v
theories/Tb_props.v
theories/Bo_model.v
theories/Bo_spec.v
theories/Bo_proofs.v
theories/Bo_props.v
theories/Plot_model.v
theories/Plot_spec.v
theories/Plot_proofs.v
theories/Plot_curve_proofs.v
theories/Plot_props.v
theories/Call_model.v
theories/Call_spec.v
theories/Call_proofs.v
theories/Call_props.v
theories/Lock_model.v
theories/Lock_spec.v
theories/Lock_proofs.v
theories/Lock_props.v
theories/Rng_model.v
theories/Rng_spec.v
theories/Rng_proofs.v
theories/Rng_props.v
theories/Prune_model.v
theories/Prune_spec.v
theories/Prune_proofs.v
theories/Prune_props.v
theories/Compose_model.v
theories/Compose_spec.v
theories/Compose_proofs.v
theories/Compose_props.v
theories/Net_model.v
theories/Net_spec.v
theories/Net_proofs.v
theories/Net_call_proofs.v
theories/Net_more_proofs.v
theories/Net_props.v
theories/Flat_model.v
theories/Flat_spec.v
theories/Flat_proofs.v
theories/Flat_props.v
theories/Arch_model.v
theories/Arch_spec.v
theories/Arch_proofs.v
theories/Arch_props.v
theories/Pool_model.v
theories/Pool_spec.v
theories/Pool_proofs.v
theories/Pool_props.v
theories/Con_model.v
theories/Con_spec.v
theories/Con_proofs.v
theories/Con_props.v
theories/Acq_model.v
theories/Acq_spec.v
theories/Acq_proofs.v
theories/Acq_props.v
theories/Near_model.v
theories/Near_spec.v
theories/Near_proofs.v
theories/Near_props.v
theories/Sub_model.v
theories/Sub_spec.v
theories/Sub_proofs.v
theories/Sub_props.v
theories/Wts_model.v
theories/Wts_spec.v
theories/Wts_proofs.v
theories/Wts_props.v
theories/Dual_model.v
theories/Dual_spec.v
theories/Dual_proofs.v
theories/Dual_props.v
