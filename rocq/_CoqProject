-Q theories Verif
theories/GoStr.v
theories/GoNum.v
theories/Letters.v
theories/Printable.v
theories/Quote.v
theories/Syntax.v
theories/Value.v
theories/Util.v
theories/Time.v
theories/Model.v
theories/Sqlf.v
theories/Sqlb.v
theories/Scan.v
theories/Replay.v
theories/Spec_syntax.v
theories/ByteLex.v
theories/Lex_proofs.v
theories/Parse_proofs.v
theories/Num_proofs.v
theories/Grammar_proofs.v
theories/Lossless_proofs.v
theories/Prop_syntax.v
theories/Spec_pos.v
theories/Pos_proofs.v
theories/Prop_pos.v
theories/RefSem.v
theories/Text_proofs.v
theories/Sim_proofs.v
theories/Fuel_proofs.v
theories/Fresh_proofs.v
theories/Order_proofs.v
theories/Store_proofs.v
theories/Spec_build.v
theories/Map_proofs.v
theories/Build_proofs.v
theories/Map2_proofs.v
theories/Prop_build.v
theories/Spec_eval.v
theories/Eval_proofs.v
theories/Use_proofs.v
theories/Join_proofs.v
theories/Join2_proofs.v
theories/Prop_eval.v
theories/Spec_base.v
theories/Base_proofs.v
theories/Prop_base.v
theories/Spec_util.v
theories/Util_proofs.v
theories/Prop_util.v
theories/Spec_query.v
theories/Deps_proofs.v
theories/Query_proofs.v
theories/Ops_proofs.v
theories/Rel_proofs.v
theories/Query2_proofs.v
theories/Clause_proofs.v
theories/Ops2_proofs.v
theories/Query3_proofs.v
theories/Prop_query.v
theories/Spec_sql.v
theories/Sql_proofs.v
theories/Prop_sql.v
theories/Spec_mean.v
theories/Mean_proofs.v
theories/Prop_mean.v
theories/Spec_term.v
theories/Term_proofs.v
theories/Loop_proofs.v
theories/Prop_term.v
theories/Ptr.v
theories/Spec_ptr.v
theories/Ptr_proofs.v
theories/Prop_ptr.v
theories/Props.v
theories/Props_proofs.v
theories/Prop_props.v
theories/Table.v
theories/Spec_table.v
theories/Table_proofs.v
theories/Prop_table.v
theories/Spec_interp.v
theories/Interp_proofs.v
theories/Prop_interp.v
theories/Spec_nest.v
theories/Nest_proofs.v
theories/Prop_nest.v
theories/Spec_grammar.v
theories/Grammar2_proofs.v
theories/Prop_grammar.v
theories/Spec_answer.v
theories/Answer_proofs.v
theories/Prop_answer.v
theories/Spec_required.v
theories/Required_proofs.v
theories/Prop_required.v
theories/Register.v
theories/Spec_register.v
theories/Register_proofs.v
theories/Prop_register.v
theories/Spec_swap.v
theories/Swap_proofs.v
theories/Swap2_proofs.v
theories/Prop_swap.v
theories/Spec_debug.v
theories/Spec_tidy.v
theories/Debug_proofs.v
theories/Tidy_proofs.v
theories/Debug2_proofs.v
theories/Prop_debug.v
theories/Spec_frame.v
theories/Frame_proofs.v
theories/Prop_frame.v
theories/Spec_user.v
theories/User_proofs.v
theories/Prop_user.v
theories/Spec_blame.v
theories/Blame_proofs.v
theories/Prop_blame.v
theories/Spec_sound.v
theories/Sound_proofs.v
theories/Sound2_proofs.v
theories/Prop_sound.v
theories/Fault_proofs.v
theories/Spec_fault.v
theories/Fault2_proofs.v
theories/Fault3_proofs.v
theories/Fault4_proofs.v
theories/Prop_fault.v
theories/Spec_intact.v
theories/Intact_proofs.v
theories/Intact2_proofs.v
theories/Intact3_proofs.v
theories/Prop_intact.v
theories/Spec_insert.v
theories/Insert_proofs.v
theories/Prop_insert.v
theories/Spec_renumber.v
theories/Renumber_proofs.v
theories/Prop_renumber.v
theories/Spec_again.v
theories/Again_proofs.v
theories/Prop_again.v
theories/Spec_utf8.v
theories/Rune_proofs.v
theories/Utf8_proofs.v
theories/Prop_utf8.v
theories/Spec_exact.v
theories/Exact_proofs.v
theories/Prop_exact.v
theories/Spec_quote.v
theories/Quote_proofs.v
theories/Quote2_proofs.v
theories/Prop_quote.v
theories/Spec_time.v
theories/Time_proofs.v
theories/Time2_proofs.v
theories/Time3_proofs.v
theories/Prop_time.v
theories/Spec_layout.v
theories/Layout_proofs.v
theories/Layout2_proofs.v
theories/Layout3_proofs.v
theories/Prop_layout.v
theories/Spec_views.v
theories/Views_proofs.v
theories/Prop_views.v
theories/Spec_steps.v
theories/Steps_proofs.v
theories/Prop_steps.v
theories/Convert.v
theories/Spec_convert.v
theories/Convert_proofs.v
theories/Prop_convert.v
theories/Spec_keep.v
theories/Keep_proofs.v
theories/Prop_keep.v
theories/Spec_rules.v
theories/Rules_proofs.v
theories/Rules_query.v
theories/Rules_all.v
theories/Prop_rules.v
theories/Spec_sqltok.v
theories/Sqltok_proofs.v
theories/Prop_sqltok.v
theories/Spec_read.v
theories/Read_proofs.v
theories/Read2_proofs.v
theories/Prop_read.v
theories/Prop_shown.v
theories/Spec_nread.v
theories/Nread_proofs.v
theories/Nread2_proofs.v
theories/Prop_nread.v
theories/Ninterp_proofs.v
theories/Nshown_proofs.v
theories/Prop_nshown.v
theories/Spec_exec.v
theories/Exec_proofs.v
theories/Prop_exec.v
theories/Spec_nexec.v
theories/Nexec_proofs.v
theories/Prop_nexec.v
theories/Spec_sqlgram.v
theories/Sqlgram_proofs.v
theories/Prop_sqlgram.v
theories/Spec_pages.v
theories/Pages_proofs.v
theories/Prop_pages.v
theories/Spec_fetch.v
theories/Fetch_proofs.v
theories/Prop_fetch.v
theories/Spec_narrow.v
theories/Narrow_proofs.v
theories/Prop_narrow.v
theories/Spec_bool.v
theories/Bool_proofs.v
theories/Prop_bool.v
theories/Spec_pick.v
theories/Pick_proofs.v
theories/Prop_pick.v
theories/Spec_shuffle.v
theories/Shuffle_proofs.v
theories/Prop_shuffle.v
theories/Spec_alias.v
theories/Alias_proofs.v
theories/Prop_alias.v
theories/Spec_dedup.v
theories/Dedup_proofs.v
theories/Prop_dedup.v
theories/Spec_regroup.v
theories/Regroup_proofs.v
theories/Prop_regroup.v
theories/Spec_joinorder.v
theories/Joinorder_proofs.v
theories/Prop_joinorder.v
theories/Spec_sides.v
theories/Sides_proofs.v
theories/Prop_sides.v
theories/Spec_turned.v
theories/Turned_proofs.v
theories/Prop_turned.v
theories/Spec_nonnull.v
theories/Nonnull_proofs.v
theories/Prop_nonnull.v
theories/Spec_spare.v
theories/Spare_proofs.v
theories/Prop_spare.v
theories/Spec_inlist.v
theories/Inlist_proofs.v
theories/Prop_inlist.v
theories/Spec_reunite.v
theories/Reunite_proofs.v
theories/Prop_reunite.v
theories/Spec_undistinct.v
theories/Undistinct_proofs.v
theories/Prop_undistinct.v
theories/Spec_inline.v
theories/Inline_proofs.v
theories/Prop_inline.v
theories/Spec_pushdown.v
theories/Pushdown_proofs.v
theories/Prop_pushdown.v
theories/Spec_insub.v
theories/Insub_proofs.v
theories/Prop_insub.v
theories/Spec_cteorder.v
theories/Cteorder_proofs.v
theories/Prop_cteorder.v
