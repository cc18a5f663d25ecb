-Q theories Verif
theories/Attention_main.v
theories/Attention_model.v
theories/Attention_proofs.v
theories/Attention_props.v
theories/Attention_spec.v
theories/Avg_main.v
theories/Avg_props.v
theories/Avg_spec.v
theories/Avg_wit.v
theories/Blind_main.v
theories/Blind_nspec.v
theories/Blind_num.v
theories/Blind_props.v
theories/Blind_rec.v
theories/Blind_rows.v
theories/Blind_spec.v
theories/Blind_wit.v
theories/Chance_main.v
theories/Chance_model.v
theories/Chance_props.v
theories/Chance_spec.v
theories/Choice_main.v
theories/Choice_model.v
theories/Choice_props.v
theories/Choice_spec.v
theories/Choice_wit.v
theories/Chunks_main.v
theories/Chunks_nspec.v
theories/Chunks_num.v
theories/Chunks_nwit.v
theories/Chunks_props.v
theories/Chunks_spec.v
theories/Chunks_wit.v
theories/Cold_main.v
theories/Cold_props.v
theories/Cold_spec.v
theories/Cold_wit.v
theories/Columns_main.v
theories/Columns_props.v
theories/Columns_spec.v
theories/Columns_wit.v
theories/Columnsref_props.v
theories/Csv_main.v
theories/Csv_model.v
theories/Csv_props.v
theories/Csv_spec.v
theories/Csv_wit.v
theories/DataPrep_main.v
theories/DataPrep_model.v
theories/DataPrep_proofs.v
theories/DataPrep_props.v
theories/DataPrep_spec.v
theories/Dup_exp.v
theories/Dup_main.v
theories/Dup_nwit.v
theories/Dup_props.v
theories/Dup_spec.v
theories/Dup_wit.v
theories/Dupn_props.v
theories/Dynamic_extra.v
theories/Dynamic_main.v
theories/Dynamic_model.v
theories/Dynamic_props.v
theories/Dynamic_spec.v
theories/Eval_main.v
theories/Eval_model.v
theories/Eval_proofs.v
theories/Eval_props.v
theories/Eval_spec.v
theories/Exact_final.v
theories/Exact_main.v
theories/Exact_props.v
theories/Exact_spec.v
theories/Exact_wit.v
theories/Full_exp.v
theories/Full_gen.v
theories/Full_main.v
theories/Full_model.v
theories/Full_num.v
theories/Full_props.v
theories/Full_psi.v
theories/Full_rec.v
theories/Full_spec.v
theories/Full_wit.v
theories/History_main.v
theories/History_model.v
theories/History_proofs.v
theories/History_props.v
theories/History_spec.v
theories/Hooi_ascent.v
theories/Hooi_bridge.v
theories/Hooi_dot.v
theories/Hooi_exact.v
theories/Hooi_final.v
theories/Hooi_ident.v
theories/Hooi_main.v
theories/Hooi_model.v
theories/Hooi_props.v
theories/Hooi_run.v
theories/Hooi_spec.v
theories/Hooi_wit.v
theories/Hosvd_main.v
theories/Hps_model.v
theories/Hps_pipe.v
theories/Hps_props.v
theories/Hps_spec.v
theories/Hps_svd.v
theories/Hps_val.v
theories/Hps_wit.v
theories/Hpt_crop.v
theories/Hpt_main.v
theories/Hpt_model.v
theories/Hpt_num.v
theories/Hpt_props.v
theories/Hpt_spec.v
theories/Hpt_tuned.v
theories/Hpt_wit.v
theories/Iter_main.v
theories/Iter_model.v
theories/Iter_props.v
theories/Iter_spec.v
theories/Iter_wit.v
theories/Later_main.v
theories/Later_props.v
theories/Later_spec.v
theories/Later_svd.v
theories/LinAlg_block.v
theories/LinAlg_bridge.v
theories/LinAlg_emb.v
theories/LinAlg_model.v
theories/LinAlg_props.v
theories/LinAlg_psi.v
theories/LinAlg_spec.v
theories/LinAlg_tables.v
theories/LinAlg_vectors.v
theories/LinAlg_wit.v
theories/Load_fresh.v
theories/Load_main.v
theories/Load_model.v
theories/Load_props.v
theories/Load_spec.v
theories/Matrix_main.v
theories/Matrix_model.v
theories/Matrix_props.v
theories/Matrix_spec.v
theories/Nobody_main.v
theories/Nti_book.v
theories/Nti_end.v
theories/Nti_exact.v
theories/Nti_land.v
theories/Nti_main.v
theories/Nti_model.v
theories/Nti_props.v
theories/Nti_rank.v
theories/Nti_refuted.v
theories/Nti_scores.v
theories/Nti_sim.v
theories/Nti_spec.v
theories/Nti_steps.v
theories/Nti_track.v
theories/Nti_train.v
theories/Nti_wit.v
theories/Num_book.v
theories/Num_cells.v
theories/Num_cold.v
theories/Num_lossless.v
theories/Num_main.v
theories/Num_model.v
theories/Num_props.v
theories/Num_sim.v
theories/Num_spec.v
theories/Num_steps.v
theories/Num_train.v
theories/Num_upd.v
theories/Num_wit.v
theories/Panel_main.v
theories/Panel_props.v
theories/Panel_spec.v
theories/Panel_wit.v
theories/Parse_main.v
theories/Parse_model.v
theories/Parse_props.v
theories/Parse_spec.v
theories/Pcore_main.v
theories/Pcore_model.v
theories/Pcore_props.v
theories/Pcore_spec.v
theories/Pipe_main.v
theories/Pipe_model.v
theories/Pipe_num.v
theories/Pipe_props.v
theories/Pipe_spec.v
theories/Pipe_wit.v
theories/Prelude.v
theories/Prelude_proofs.v
theories/Prow_main.v
theories/Prow_spec.v
theories/Psi_main.v
theories/Psi_model.v
theories/Psi_proofs.v
theories/Psi_props.v
theories/Psi_spec.v
theories/Ratio_any.v
theories/Ratio_ieee.v
theories/Ratio_main.v
theories/Ratio_model.v
theories/Ratio_props.v
theories/Ratio_spec.v
theories/Ratio_split.v
theories/Rawlog_main.v
theories/Rawlog_props.v
theories/Rawlog_spec.v
theories/Rawlog_wit.v
theories/Recommend_main.v
theories/Recommend_model.v
theories/Recommend_proofs.v
theories/Recommend_props.v
theories/Recommend_spec.v
theories/Reinit_main.v
theories/Reinit_props.v
theories/Reinit_wit.v
theories/Reinitref_props.v
theories/Relerr_main.v
theories/Relerr_model.v
theories/Relerr_props.v
theories/Relerr_spec.v
theories/Rename_exp.v
theories/Rename_main.v
theories/Rename_props.v
theories/Rename_spec.v
theories/Rename_wit.v
theories/Renameref_props.v
theories/Report_graph.v
theories/Report_main.v
theories/Report_model.v
theories/Report_names.v
theories/Report_props.v
theories/Report_spec.v
theories/Report_str.v
theories/Report_tab.v
theories/Report_wit.v
theories/Retrain_main.v
theories/Retrain_model.v
theories/Retrain_proofs.v
theories/Retrain_props.v
theories/Retrain_spec.v
theories/Rex_book.v
theories/Rex_gen.v
theories/Rex_model.v
theories/Rex_num.v
theories/Rex_pipe.v
theories/Rex_props.v
theories/Rex_rec.v
theories/Rex_spec.v
theories/Rex_wit.v
theories/Sblind_alg.v
theories/Sblind_main.v
theories/Sblind_props.v
theories/Sblind_spec.v
theories/Sblind_wit.v
theories/Search_bridge.v
theories/Search_grid.v
theories/Search_main.v
theories/Search_model.v
theories/Search_props.v
theories/Search_spec.v
theories/Seqx_book.v
theories/Seqx_inv.v
theories/Seqx_model.v
theories/Seqx_num.v
theories/Seqx_props.v
theories/Seqx_spec.v
theories/Seqx_upd.v
theories/Seqx_wit.v
theories/Stats_main.v
theories/Stats_model.v
theories/Stats_props.v
theories/Stats_spec.v
theories/Steps_block.v
theories/Steps_budget.v
theories/Steps_err.v
theories/Steps_exp.v
theories/Steps_full.v
theories/Steps_main.v
theories/Steps_model.v
theories/Steps_num.v
theories/Steps_props.v
theories/Steps_psi.v
theories/Steps_ratio.v
theories/Steps_spec.v
theories/Steps_vec.v
theories/Steps_wit.v
theories/Stream_group.v
theories/Stream_main.v
theories/Stream_model.v
theories/Stream_props.v
theories/Stream_spec.v
theories/Sweeps_main.v
theories/Sweeps_props.v
theories/Sweeps_wit.v
theories/Tables_graph.v
theories/Tables_main.v
theories/Tables_model.v
theories/Tables_props.v
theories/Tables_spec.v
theories/Tdx_book.v
theories/Tdx_model.v
theories/Tdx_num.v
theories/Tdx_props.v
theories/Tdx_rec.v
theories/Tdx_spec.v
theories/Tdx_wit.v
theories/Tensor_core.v
theories/Tensor_dot.v
theories/Tensor_extra.v
theories/Tensor_main.v
theories/Tensor_model.v
theories/Tensor_project.v
theories/Tensor_proofs.v
theories/Tensor_props.v
theories/Tensor_spec.v
theories/Tensor_sums.v
theories/Tirec_assembly.v
theories/Tirec_main.v
theories/Tirec_model.v
theories/Tirec_proofs.v
theories/Tirec_props.v
theories/Tirec_spec.v
theories/Tirec_stream.v
theories/Topk_main.v
theories/Topk_nwit.v
theories/Topk_props.v
theories/Topk_spec.v
theories/Topk_wit.v
theories/Training_model.v
theories/Training_props.v
theories/Tucker2_main.v
theories/Tucker_bridge.v
theories/Tucker_emb.v
theories/Tucker_integ.v
theories/Tucker_main.v
theories/Tucker_model.v
theories/Tucker_modes.v
theories/Tucker_props.v
theories/Tucker_spec.v
theories/Tucker_wit.v
theories/Upd_block.v
theories/Upd_model.v
theories/Upd_new.v
theories/Upd_props.v
theories/Upd_spec.v
theories/Upd_vec.v
theories/Upd_wit.v
