(** Generated by tools/props.py: the assumptions of all property theorems together (one traversal: the list printed
    is the union of the lists of all theorems named here; it is empty). *)
From Verif Require P_Accept P_Acked P_Blame P_Choices P_Commute P_Config P_Demos P_Demos2 P_Ends P_Exact P_Fifo P_Frame P_Gen P_Hash P_Keys P_Kinds P_Life P_Lists P_Logged P_Main P_Map P_Mono P_Overload P_Pages P_Pot P_Preload P_Real1 P_Requests P_Retry P_Sections P_Serve P_Serve1 P_ServeMore P_Server P_Sets P_Stream P_Strings P_Table P_Tenants P_Term P_Use P_Use2 P_Use3 P_Use4 P_Use5 P_Use6 P_Use7 P_Wire P_ZSets.
(** P_Accept.v *)
Definition P_Accept_theorems :=
  (@P_Accept.C72_accepted,
   @P_Accept.C72_panics,
   @P_Accept.C72_refused,
   @P_Accept.C72_unambiguous,
   @P_Accept.C72_served,
   @P_Accept.C72_decimal,
   @P_Accept.C72_demo).
(** P_Acked.v *)
Definition P_Acked_theorems :=
  (@P_Acked.C94_in_order,
   @P_Acked.C94_in_order1,
   @P_Acked.C94_pipelined1,
   @P_Acked.C94_pipelined_refuted).
(** P_Blame.v *)
Definition P_Blame_theorems :=
  (@P_Blame.C71_unhurt,
   @P_Blame.C71_blame,
   @P_Blame.C71_history,
   @P_Blame.C71_served,
   @P_Blame.C71_demo,
   @P_Blame.C71_causes).
(** P_Choices.v *)
Definition P_Choices_theorems :=
  (@P_Choices.C69_replay,
   @P_Choices.C69_settled_partial,
   @P_Choices.C69_served,
   @P_Choices.C69_towers_refuted,
   @P_Choices.C69_open_refuted,
   @P_Choices.C69_replay_demo,
   @P_Choices.C69_settled_demo,
   @P_Choices.C69_served_demo).
(** P_Commute.v *)
Definition P_Commute_theorems :=
  (@P_Commute.C77_swap,
   @P_Commute.C77_order,
   @P_Commute.C77_clients,
   @P_Commute.C77_reads,
   @P_Commute.C77_shared_refuted,
   @P_Commute.C77_same_key_refuted).
(** P_Config.v *)
Definition P_Config_theorems :=
  (@P_Config.C85_in_force,
   @P_Config.C85_accepted,
   @P_Config.C85_never_zero,
   @P_Config.C85_refused_leave_no_trace,
   @P_Config.C85_takes_effect,
   @P_Config.C85_positive_refuted,
   @P_Config.C85_demo).
(** P_Ends.v *)
Definition P_Ends_theorems :=
  (@P_Ends.C64_history,
   @P_Ends.C64_start,
   @P_Ends.C64_run,
   @P_Ends.C64_lost_front).
(** P_Exact.v *)
Definition P_Exact_theorems :=
  (@P_Exact.C61_zpopmin,
   @P_Exact.C61_zscore,
   @P_Exact.C61_zrank,
   @P_Exact.C61_empty,
   @P_Exact.C61_zadd,
   @P_Exact.C61_zincr,
   @P_Exact.C61_zrem,
   @P_Exact.C62_sadd,
   @P_Exact.C62_srem,
   @P_Exact.C62_spop,
   @P_Exact.C62_smove,
   @P_Exact.C62_store,
   @P_Exact.C62_history).
(** P_Fifo.v *)
Definition P_Fifo_theorems :=
  (@P_Fifo.C95_fifo,
   @P_Fifo.C95_fifo1,
   @P_Fifo.C95_pipelined_refuted,
   @P_Fifo.C95_stack_refuted).
(** P_Frame.v *)
Definition P_Frame_theorems :=
  (@P_Frame.C13_frame,
   @P_Frame.C13_frame_linked,
   @P_Frame.C13_frame_nonset,
   @P_Frame.C13_reads_change_nothing,
   @P_Frame.C13_alias_refuted).
(** P_Gen.v *)
Definition P_Gen_theorems :=
  (@P_Gen.C66_declarations,
   @P_Gen.C66_callable,
   @P_Gen.C66_files,
   @P_Gen.C66_again,
   @P_Gen.C66_paths_needed,
   @P_Gen.C66_long_line,
   @P_Gen.C66_repository,
   @P_Gen.C66_commands,
   @P_Gen.C66_dispatch,
   @P_Gen.C66_demo).
(** P_Hash.v *)
Definition P_Hash_theorems :=
  (@P_Hash.C37_nothing_stored,
   @P_Hash.C51_refuted,
   @P_Hash.C51_no_phantom_partial,
   @P_Hash.C40_hash_table,
   @P_Hash.C52_length_partial,
   @P_Hash.C52_refuted).
(** P_Keys.v *)
Definition P_Keys_theorems :=
  (@P_Keys.C14_present,
   @P_Keys.C14_type,
   @P_Keys.C14_type_meaning,
   @P_Keys.C14_keys,
   @P_Keys.C14_del,
   @P_Keys.C14_bad_pattern_refuted).
(** P_Kinds.v *)
Definition P_Kinds_theorems :=
  (@P_Kinds.C73_kinds,
   @P_Kinds.C73_silent,
   @P_Kinds.C74_error_no_effect_partial,
   @P_Kinds.C74_refuted,
   @P_Kinds.C73_served,
   @P_Kinds.C73_answered,
   @P_Kinds.C73_served1,
   @P_Kinds.C73_encoder,
   @P_Kinds.C73_tight,
   @P_Kinds.C73_demo).
(** P_Life.v *)
Definition P_Life_theorems :=
  (@P_Life.C70_life,
   @P_Life.C70_keys,
   @P_Life.C70_until_del,
   @P_Life.C70_served,
   @P_Life.C70_type_stays,
   @P_Life.C70_emptied_demo,
   @P_Life.C70_life_demo,
   @P_Life.C70_stays_demo).
(** P_Lists.v *)
Definition P_Lists_theorems :=
  (@P_Lists.C20_start,
   @P_Lists.C20_sequence,
   @P_Lists.C20_served,
   @P_Lists.C20_shown,
   @P_Lists.C21_lrem_result,
   @P_Lists.C21_lrem,
   @P_Lists.C21_lrem_missing,
   @P_Lists.C21_min_count,
   @P_Lists.C21_min_count_refuted,
   @P_Lists.C22_empty_partial,
   @P_Lists.C22_pop_all,
   @P_Lists.C22_refuted,
   @P_Lists.C23_window,
   @P_Lists.C23_lrange,
   @P_Lists.C23_lset,
   @P_Lists.C49_lindex_refuted,
   @P_Lists.C49_lindex_partial).
(** P_Logged.v *)
Definition P_Logged_theorems :=
  (@P_Logged.C98_logged,
   @P_Logged.C98_logged1,
   @P_Logged.C98_pipelined_refuted).
(** P_Main.v *)
Definition P_Main_theorems :=
  (@P_Main.C65_end_is_clean,
   @P_Main.C65_at_most_once,
   @P_Main.C65_ends,
   @P_Main.C65_failure,
   @P_Main.C65_signal_partial,
   @P_Main.C65_deaf,
   @P_Main.C65_signals_end_refuted,
   @P_Main.C65_break_stays,
   @P_Main.C65_demo).
(** P_Map.v *)
Definition P_Map_theorems :=
  (@P_Map.C11_map,
   @P_Map.C11_lookup).
(** P_Mono.v *)
Definition P_Mono_theorems :=
  (@P_Mono.C93_counter,
   @P_Mono.C93_set,
   @P_Mono.C93_counter1,
   @P_Mono.C93_set1,
   @P_Mono.C93_overflow_refuted,
   @P_Mono.C93_pop_refuted).
(** P_Overload.v *)
Definition P_Overload_theorems :=
  (@P_Overload.C75_bound,
   @P_Overload.C75_refused,
   @P_Overload.C75_taken,
   @P_Overload.C75_no_trace,
   @P_Overload.C75_no_reply,
   @P_Overload.C75_queue,
   @P_Overload.C75_patient,
   @P_Overload.C75_drains,
   @P_Overload.C75_demo,
   @P_Overload.C75_queue_tight,
   @P_Overload.C75_patient_demo).
(** P_Pages.v *)
Definition P_Pages_theorems :=
  (@P_Pages.C92_list,
   @P_Pages.C92_zset,
   @P_Pages.C92_conversation,
   @P_Pages.C92_clients,
   @P_Pages.C92_clients1,
   @P_Pages.C92_past_the_end,
   @P_Pages.C92_zrevrange_refuted).
(** P_Pot.v *)
Definition P_Pot_theorems :=
  (@P_Pot.C97_pot,
   @P_Pot.C97_once,
   @P_Pot.C97_clients,
   @P_Pot.C97_clients1,
   @P_Pot.C97_default_refuted,
   @P_Pot.C97_again_refuted).
(** P_Preload.v *)
Definition P_Preload_theorems :=
  (@P_Preload.C67_loaded_partial,
   @P_Preload.C67_executed,
   @P_Preload.C67_first_refuted,
   @P_Preload.C67_exclusive_refuted,
   @P_Preload.C67_demo).
(** P_Real1.v *)
Definition P_Real1_theorems :=
  (@P_Real1.C91_real_time,
   @P_Real1.C91_answered_executed,
   @P_Real1.C91_taken_first,
   @P_Real1.C91_fresh).
(** P_Requests.v *)
Definition P_Requests_theorems :=
  (@P_Requests.C12_type_error,
   @P_Requests.C12_set_algebra,
   @P_Requests.C12_set_algebra_store,
   @P_Requests.C12_exceptions,
   @P_Requests.C19_mget_mixed,
   @P_Requests.C12_no_type_error_refuted,
   @P_Requests.C15_unknown,
   @P_Requests.C15_too_few,
   @P_Requests.C15_not_integer,
   @P_Requests.C15_not_float,
   @P_Requests.C15_case_insensitive,
   @P_Requests.C15_mset_one,
   @P_Requests.C15_mset_refuted).
(** P_Retry.v *)
Definition P_Retry_theorems :=
  (@P_Retry.C76_twice,
   @P_Retry.C76_history,
   @P_Retry.C76_error,
   @P_Retry.C76_set_noop,
   @P_Retry.C76_del_noop,
   @P_Retry.C76_sadd_noop,
   @P_Retry.C76_srem_noop,
   @P_Retry.C76_set_later,
   @P_Retry.C76_del_later,
   @P_Retry.C76_sadd_later,
   @P_Retry.C76_store,
   @P_Retry.C76_hash,
   @P_Retry.C76_others,
   @P_Retry.C76_all_kinds).
(** P_Sections.v *)
Definition P_Sections_theorems :=
  (@P_Sections.C96_sections,
   @P_Sections.C96_sections1,
   @P_Sections.C96_not_owner_refuted,
   @P_Sections.C96_impatient_refuted).
(** P_Serve.v *)
Definition P_Serve_theorems :=
  (@P_Serve.C07_serial,
   @P_Serve.C07_exclusive,
   @P_Serve.C08_real_time,
   @P_Serve.C08_replied_executed,
   @P_Serve.C42_terminates,
   @P_Serve.C42_all_answered,
   @P_Serve.C09_at_most_once_partial,
   @P_Serve.C47_timed_out_executed,
   @P_Serve.C10_no_panic,
   @P_Serve.C10_stop_returns,
   @P_Serve.C10_nothing_after,
   @P_Serve.C10_executed_answered).
(** P_Serve1.v *)
Definition P_Serve1_theorems :=
  (@P_Serve1.C57_in_order,
   @P_Serve1.C57_executed_in_order,
   @P_Serve1.C57_bytes,
   @P_Serve1.C57_bytes_exact,
   @P_Serve1.C57_as_sent,
   @P_Serve1.C58_all_served,
   @P_Serve1.C59_causes_partial,
   @P_Serve1.C59_refuted,
   @P_Serve1.C60_stop_returns,
   @P_Serve1.C60_nothing_executed,
   @P_Serve1.C60_nothing_written,
   @P_Serve1.C58_demo,
   @P_Serve1.C57_demo,
   @P_Serve1.C59_demo,
   @P_Serve1.C60_demo).
(** P_ServeMore.v *)
Definition P_ServeMore_theorems :=
  (@P_ServeMore.C06_single_partial,
   @P_ServeMore.C46_rest_ignored,
   @P_ServeMore.C43_write_ahead_partial,
   @P_ServeMore.C43_log_is_request,
   @P_ServeMore.C53_fifo,
   @P_ServeMore.C48_all_but_last_partial,
   @P_ServeMore.C41_closed_loop_partial,
   @P_ServeMore.C07_demo,
   @P_ServeMore.C06_refuted,
   @P_ServeMore.C06_demo,
   @P_ServeMore.C09_refuted,
   @P_ServeMore.C09_demo,
   @P_ServeMore.C10_demo,
   @P_ServeMore.C48_accepted_refuted,
   @P_ServeMore.C41_demo,
   @P_ServeMore.C41_refuted,
   @P_ServeMore.C43_demo,
   @P_ServeMore.C43_refuted).
(** P_Server.v *)
Definition P_Server_theorems :=
  (@P_Server.C38_harmless_partial,
   @P_Server.C38_specified_partial,
   @P_Server.C38_server_partial,
   @P_Server.C38_requests_refuted,
   @P_Server.C38_refuted,
   @P_Server.C38_no_request_refuted,
   @P_Server.C39_refines,
   @P_Server.C39_refines_calm,
   @P_Server.C39_complete,
   @P_Server.C39_server).
(** P_Sets.v *)
Definition P_Sets_theorems :=
  (@P_Sets.C24_sadd,
   @P_Sets.C24_sadd_fresh,
   @P_Sets.C24_srem,
   @P_Sets.C24_srem_missing,
   @P_Sets.C24_smembers,
   @P_Sets.C24_history,
   @P_Sets.C24_history_served,
   @P_Sets.C25_at_least,
   @P_Sets.C25_scard_partial,
   @P_Sets.C25_missing,
   @P_Sets.C25_refuted,
   @P_Sets.C26_algebra,
   @P_Sets.C26_store,
   @P_Sets.C26_missing_refuted,
   @P_Sets.C27_copy,
   @P_Sets.C27_sources,
   @P_Sets.C27_single_source,
   @P_Sets.C27_one_set,
   @P_Sets.C27_refuted,
   @P_Sets.C28_spop,
   @P_Sets.C28_smove,
   @P_Sets.C28_smove_absent,
   @P_Sets.C28_spop_default,
   @P_Sets.C28_smove_lost,
   @P_Sets.C28_smove_self,
   @P_Sets.C28_refuted).
(** P_Stream.v *)
Definition P_Stream_theorems :=
  (@P_Stream.C56_requests_partial,
   @P_Stream.C56_so_far_partial,
   @P_Stream.C56_monotone,
   @P_Stream.C56_as_frame,
   @P_Stream.C56_bytes,
   @P_Stream.C56_exact,
   @P_Stream.C56_refuted,
   @P_Stream.C56_demo).
(** P_Strings.v *)
Definition P_Strings_theorems :=
  (@P_Strings.C16_get_after_set,
   @P_Strings.C16_string_variable,
   @P_Strings.C16_string_variable_served,
   @P_Strings.C17_wraps,
   @P_Strings.C17_exact,
   @P_Strings.C17_not_integer,
   @P_Strings.C17_overflow_refuted,
   @P_Strings.C18_append,
   @P_Strings.C19_mset,
   @P_Strings.C19_mget,
   @P_Strings.C19_mget_no_reply_refuted).
(** P_Table.v *)
Definition P_Table_theorems :=
  (@P_Table.C63_history,
   @P_Table.C63_total,
   @P_Table.C63_zadd,
   @P_Table.C63_zincr,
   @P_Table.C63_zrem,
   @P_Table.C63_pop).
(** P_Tenants.v *)
Definition P_Tenants_theorems :=
  (@P_Tenants.C68_alone,
   @P_Tenants.C68_unnoticed,
   @P_Tenants.C68_served,
   @P_Tenants.C68_demo,
   @P_Tenants.C68_keys_refuted,
   @P_Tenants.C68_crash_refuted,
   @P_Tenants.C68_served_demo).
(** P_Term.v *)
Definition P_Term_theorems :=
  (@P_Term.C55_every_request,
   @P_Term.C55_every_history,
   @P_Term.C55_server).
(** P_Use.v *)
Definition P_Use_theorems :=
  (@P_Use.C78_queue,
   @P_Use.C78_once,
   @P_Use.C78_from_push,
   @P_Use.C78_size,
   @P_Use.C78_clients,
   @P_Use.C78_clients1,
   @P_Use.C79_numbers,
   @P_Use.C79_clients,
   @P_Use.C79_clients1,
   @P_Use.C80_lock,
   @P_Use.C80_told,
   @P_Use.C80_exclusive,
   @P_Use.C80_clients,
   @P_Use.C80_clients1,
   @P_Use.C81_log,
   @P_Use.C81_told,
   @P_Use.C81_found,
   @P_Use.C81_apart,
   @P_Use.C81_clients,
   @P_Use.C81_clients1,
   @P_Use.C78_lrem_refuted,
   @P_Use.C78_missed,
   @P_Use.C79_wraps_refuted,
   @P_Use.C80_pair_refuted,
   @P_Use.C80_forgotten).
(** P_Use2.v *)
Definition P_Use2_theorems :=
  (@P_Use2.C82_together,
   @P_Use2.C82_clients,
   @P_Use2.C82_clients1,
   @P_Use2.C83_deque,
   @P_Use2.C83_last_first,
   @P_Use2.C83_conserved,
   @P_Use2.C83_clients,
   @P_Use2.C83_clients1,
   @P_Use2.C82_gets_refuted).
(** P_Use3.v *)
Definition P_Use3_theorems :=
  (@P_Use3.C84_list,
   @P_Use3.C84_page,
   @P_Use3.C84_read_on,
   @P_Use3.C84_up_to_date,
   @P_Use3.C84_clients,
   @P_Use3.C84_clients1,
   @P_Use3.C84_front_refuted).
(** P_Use4.v *)
Definition P_Use4_theorems :=
  (@P_Use4.C86_board,
   @P_Use4.C86_told,
   @P_Use4.C86_clients,
   @P_Use4.C86_clients1,
   @P_Use4.C86_unique,
   @P_Use4.C86_pop_refuted).
(** P_Use5.v *)
Definition P_Use5_theorems :=
  (@P_Use5.C87_places,
   @P_Use5.C87_move,
   @P_Use5.C87_once,
   @P_Use5.C87_clients,
   @P_Use5.C87_clients1,
   @P_Use5.C87_wrong_type_refuted,
   @P_Use5.C87_twice_refuted).
(** P_Use6.v *)
Definition P_Use6_theorems :=
  (@P_Use6.C88_sum,
   @P_Use6.C88_clients,
   @P_Use6.C88_clients1,
   @P_Use6.C89_seen,
   @P_Use6.C89_clients,
   @P_Use6.C89_clients1,
   @P_Use6.C88_set_refuted,
   @P_Use6.C89_pop_refuted).
(** P_Use7.v *)
Definition P_Use7_theorems :=
  (@P_Use7.C90_register,
   @P_Use7.C90_clients,
   @P_Use7.C90_clients1,
   @P_Use7.C90_fresh).
(** P_Wire.v *)
Definition P_Wire_theorems :=
  (@P_Wire.C01_request,
   @P_Wire.C01_injective,
   @P_Wire.C05_total,
   @P_Wire.C05_local,
   @P_Wire.C05_nested,
   @P_Wire.C45_cut,
   @P_Wire.C04_refused_partial,
   @P_Wire.C44_panic_cause,
   @P_Wire.C03_no_panic_partial,
   @P_Wire.C03_no_cr_refuted,
   @P_Wire.C02_reply,
   @P_Wire.C02_injective,
   @P_Wire.C04_refuted).
(** P_ZSets.v *)
Definition P_ZSets_theorems :=
  (@P_ZSets.C29_start,
   @P_ZSets.C29_history,
   @P_ZSets.C29_served,
   @P_ZSets.C29_sorted,
   @P_ZSets.C29_shown,
   @P_ZSets.C29_zrange,
   @P_ZSets.C29_zrange_all,
   @P_ZSets.C30_zscore,
   @P_ZSets.C30_zadd,
   @P_ZSets.C30_zincr,
   @P_ZSets.C29_high_tower_refuted,
   @P_ZSets.C31_zrank,
   @P_ZSets.C31_missing,
   @P_ZSets.C32_zrem_partial,
   @P_ZSets.C32_missing,
   @P_ZSets.C32_refuted,
   @P_ZSets.C33_zpopmin_partial,
   @P_ZSets.C33_zpopmax_partial,
   @P_ZSets.C33_refuted,
   @P_ZSets.C54_zcount,
   @P_ZSets.C54_zrangebyscore,
   @P_ZSets.C54_closed,
   @P_ZSets.C54_towers,
   @P_ZSets.C34_zcount_partial,
   @P_ZSets.C34_zrangebyscore_partial,
   @P_ZSets.C34_all,
   @P_ZSets.C34_from_member,
   @P_ZSets.C34_refuted,
   @P_ZSets.C35_zrevrange,
   @P_ZSets.C50_descending_partial,
   @P_ZSets.C50_all,
   @P_ZSets.C50_refuted,
   @P_ZSets.C36_parse,
   @P_ZSets.C36_options,
   @P_ZSets.C36_count,
   @P_ZSets.C36_incr,
   @P_ZSets.C36_xx_creates_refuted).
Definition all_theorems :=
  (P_Accept_theorems, P_Acked_theorems, P_Blame_theorems, P_Choices_theorems, P_Commute_theorems, P_Config_theorems, P_Ends_theorems, P_Exact_theorems, P_Fifo_theorems, P_Frame_theorems, P_Gen_theorems, P_Hash_theorems, P_Keys_theorems, P_Kinds_theorems, P_Life_theorems, P_Lists_theorems, P_Logged_theorems, P_Main_theorems, P_Map_theorems, P_Mono_theorems, P_Overload_theorems, P_Pages_theorems, P_Pot_theorems, P_Preload_theorems, P_Real1_theorems, P_Requests_theorems, P_Retry_theorems, P_Sections_theorems, P_Serve_theorems, P_Serve1_theorems, P_ServeMore_theorems, P_Server_theorems, P_Sets_theorems, P_Stream_theorems, P_Strings_theorems, P_Table_theorems, P_Tenants_theorems, P_Term_theorems, P_Use_theorems, P_Use2_theorems, P_Use3_theorems, P_Use4_theorems, P_Use5_theorems, P_Use6_theorems, P_Use7_theorems, P_Wire_theorems, P_ZSets_theorems).
Print Assumptions all_theorems.
