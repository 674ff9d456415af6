PropUtil.C01_lossless: Closed under the global context
PropUtil.C01_progress: Closed under the global context
PropUtil.C02_boundary: Closed under the global context
PropUtil.C02_unfinished: Closed under the global context
PropUtil.C02_exclusive: Closed under the global context
PropUtil.C03_atomic: Closed under the global context
PropUtil.C04_plain: Closed under the global context
PropUtil.C04_call: Closed under the global context
PropUtil.C04_trailing: Closed under the global context
PropUtil.C04_open: Closed under the global context
PropUtil.C04_cases: Closed under the global context
PropUtil.C05_decimal: Closed under the global context
PropUtil.C05_hex: Closed under the global context
PropUtil.C06_exact: Closed under the global context
PropUtil.C06_error: Closed under the global context
PropTerm.C07_str2oxm: Closed under the global context
PropTerm.C07_str2oxmid: Closed under the global context
PropTerm.C07_str2act: Closed under the global context
PropTerm.C07_str2mod: Closed under the global context
PropTerm.C07_str2group: Closed under the global context
PropTerm.C07_text2mpflow: Closed under the global context
PropTerm.C07_text2mpgroupdesc: Closed under the global context
PropTerm.C07_text2mpgroup: Closed under the global context
PropOxm.C08_plain: Closed under the global context
PropOxm.C08_masked: Closed under the global context
PropOxm.C08_read: Closed under the global context
PropOxm.C08_registers_refuted: Closed under the global context
PropOxm.C08_ip_frag_refuted: Closed under the global context
PropOxm.C08_mask_dropped_refuted: Closed under the global context
PropOxm.C08_ct_refuted: Closed under the global context
PropOxm.C09_port: Closed under the global context
PropOxm.C09_names: Closed under the global context
PropOxm.C10_mac: Closed under the global context
PropOxm.C10_masked: Closed under the global context
PropOxm.C11_ipv4: Closed under the global context
PropOxm.C11_masked: Closed under the global context
PropOxm.C12_ipv6: Closed under the global context
PropOxm.C12_masked: Closed under the global context
PropOxm.C12_spellings: Closed under the global context
PropOxm.C13_plain: Closed under the global context
PropOxm.C13_masked: Closed under the global context
PropOxm.C13_vht: Closed under the global context
PropOxm.C13_vht_masked: Closed under the global context
PropOxm.C13_le_mask_refuted: Closed under the global context
PropOxm.C14_hex: Closed under the global context
PropOxm.C14_masked: Closed under the global context
PropOxm.C14_read: Closed under the global context
PropOxm.C14_padded: Closed under the global context
PropOxm.C15_ssid: Closed under the global context
PropOxm.C15_masked: Closed under the global context
PropOxm.C16_print: Closed under the global context
PropOxm.C16_each: Closed under the global context
PropOxm.C16_parse: Closed under the global context
PropOxm.C16_roundtrip: Closed under the global context
PropOxm.C16_first: Closed under the global context
PropOxm.C16_first_print: Closed under the global context
PropOxm.C17_framed: Closed under the global context
PropOxm.C18_unique: Closed under the global context
PropOxm.C18_name_to_id: Closed under the global context
PropOxm.C18_id_to_name: Closed under the global context
PropOxm.C18_frag_refuted: Closed under the global context
PropOxm.C18_unknown: Closed under the global context
PropOxm.C19_truncated: Closed under the global context
PropOxm.C19_masks: Closed under the global context
PropOxm.C20_notations: Closed under the global context
PropOxm.C20_masks: Closed under the global context
PropOxm.C21_ipv4_refuted: Closed under the global context
PropOxm.C21_ipv6_refuted: Closed under the global context
PropOxm.C21_ipv6_128: Closed under the global context
PropOxm.C21_ipv4_0: Closed under the global context
PropAct.C22_roundtrip: Closed under the global context
PropAct.C22_written: Closed under the global context
PropAct.C22_max_len_refuted: Closed under the global context
PropAct.C22_set_nw_ttl_refuted: Closed under the global context
PropAct.C23_encodes: Closed under the global context
PropAct.C23_function: Closed under the global context
PropAct.C23_roundtrip: Closed under the global context
PropAct.C23_padding: Closed under the global context
PropAct.C24_roundtrip: Closed under the global context
PropAct.C24_written: Closed under the global context
PropAct.C24_tunnel64_refuted: Closed under the global context
PropAct.C24_learn_refuted: Closed under the global context
PropAct.C25_framed: Closed under the global context
PropAct.C26_same: Closed under the global context
PropAct.C26_set_field: Closed under the global context
PropAct.C27_print: Closed under the global context
PropFlow.C27_encodes: Closed under the global context
PropFlow.C27_bytes: Closed under the global context
PropTerm.C28_oxm2str: Closed under the global context
PropTerm.C28_oxmid2str: Closed under the global context
PropTerm.C28_action: Closed under the global context
PropTerm.C28_actions: Closed under the global context
PropTerm.C28_actions_forever: Closed under the global context
PropTerm.C28_instruction: Closed under the global context
PropTerm.C28_instructions: Closed under the global context
PropTerm.C28_instructions_forever: Closed under the global context
PropTerm.C28_flow: Closed under the global context
PropFlow.C29_framed: Closed under the global context
PropFlow.C30_encodes: Closed under the global context
PropFlow.C30_canonical: Closed under the global context
PropFlow.C31_prints: Closed under the global context
PropFlow.C32_binary: Closed under the global context
PropFlow.C32_text: Closed under the global context
PropFlow.C32_written: Closed under the global context
PropFlow.C32_flags_refuted: Closed under the global context
PropFlow.C33_defaults: Closed under the global context
PropFlow.C33_delete: Closed under the global context
PropFlow.C33_other: Closed under the global context
PropFlow.C34_alias: Closed under the global context
PropFlow.C35_accepted: Closed under the global context
PropFlow.C35_entry: Closed under the global context
PropFlow.C35_action: Closed under the global context
PropFlow.C35_instruction: Closed under the global context
PropFlow.C35_after_instruction: Closed under the global context
PropFlow.C36_separators: Closed under the global context
PropFlow.C37_last: Closed under the global context
PropFlow.C37_order: Closed under the global context
PropGroup.C38_encodes: Closed under the global context
PropGroup.C38_canonical: Closed under the global context
PropGroup.C38_prints: Closed under the global context
PropGroup.C38_binary: Closed under the global context
PropGroup.C38_text: Closed under the global context
PropGroup.C39_framed: Closed under the global context
PropGroup.C40_shown: Closed under the global context
PropGroup.C40_every_bucket: Closed under the global context
PropGroup.C40_refuted: Closed under the global context
PropMp.C41_encodes: Closed under the global context
PropMp.C41_prints: Closed under the global context
PropMp.C41_text: Closed under the global context
PropMp.C41_binary: Closed under the global context
PropMp.C41_reread: Closed under the global context
PropMp.C41_request: Closed under the global context
PropMp.C41_priority_refuted: Closed under the global context
PropMp.C41_empty_refuted: Closed under the global context
PropMp.C41_request_refuted: Closed under the global context
PropMp.C41_long_refuted: Closed under the global context
PropMp.C42_encodes: Closed under the global context
PropMp.C42_prints: Closed under the global context
PropMp.C42_text: Closed under the global context
PropMp.C42_shown: Closed under the global context
PropMp.C42_binary: Closed under the global context
PropMp.C42_request: Closed under the global context
PropMp.C42_empty_refuted: Closed under the global context
PropMp.C42_long_refuted: Closed under the global context
PropMp.C43_encodes: Closed under the global context
PropMp.C43_prints: Closed under the global context
PropMp.C43_shown: Closed under the global context
PropMp.C43_text: Closed under the global context
PropMp.C43_binary: Closed under the global context
PropMp.C43_request: Closed under the global context
PropMp.C43_request_prints: Closed under the global context
PropMp.C43_all_refuted: Closed under the global context
PropMp.C43_bare_refuted: Closed under the global context
PropMp.C43_long_refuted: Closed under the global context
PropMp.C44_flow: Closed under the global context
PropMp.C44_desc: Closed under the global context
PropMp.C44_desc_request: Closed under the global context
PropMp.C44_group: Closed under the global context
PropMp.C44_group_request: Closed under the global context
PropGroup.C45_flow: Closed under the global context
PropGroup.C45_flow_call: Closed under the global context
PropGroup.C45_group: Closed under the global context
PropGroup.C45_group_refuted: Closed under the global context
PropGroup.C45_group_without_id: Closed under the global context
PropCli.C46_read: Closed under the global context
PropCli.C46_only_then: Closed under the global context
PropCli.C46_header_refuted: Closed under the global context
PropCli.C46_body_refuted: Closed under the global context
PropCli.C47_returns: Closed under the global context
PropCli.C47_waits: Closed under the global context
PropCli.C47_refuted: Closed under the global context
PropCli.C47_never_fails: Closed under the global context
PropCli.C48_prints: Closed under the global context
PropCli.C48_raises: Closed under the global context
PropCli.C48_waits: Closed under the global context
PropCli.C48_flows: Closed under the global context
PropCli.C48_groups: Closed under the global context
PropCli.C49_flow: Closed under the global context
PropCli.C49_group: Closed under the global context
PropCli.C49_rejected: Closed under the global context
PropCli.C49_unknown: Closed under the global context
PropCli.C49_dump_flows: Closed under the global context
PropCli.C49_dump_groups: Closed under the global context
PropCli.C49_independent: Closed under the global context
PropCli.C49_whole: Closed under the global context
PropNx.C50_written: Closed under the global context
PropNx.C50_prints: Closed under the global context
PropNx.C50_roundtrip: Closed under the global context
PropNx.C50_words_refuted: Closed under the global context
PropNx.C50_padding_refuted: Closed under the global context
PropNx.C50_long_refuted: Closed under the global context
PropShow.C50_quoted: Closed under the global context
PropNx.C51_roundtrip: Closed under the global context
PropNx.C51_written: Closed under the global context
PropNx.C51_range_refuted: Closed under the global context
PropNx.C52_roundtrip: Closed under the global context
PropNx.C52_written: Closed under the global context
PropNx.C52_fixed_refuted: Closed under the global context
PropNx.C52_output_refuted: Closed under the global context
PropNx.C53_padded: Closed under the global context
PropNx.C53_ttl_refuted: Closed under the global context
PropNx.C53_refuted: Closed under the global context
PropStable.C54_flow: Closed under the global context
PropStable.C54_match_only: Closed under the global context
PropStable.C54_group: Closed under the global context
PropStable.C54_tunnel_refuted: Closed under the global context
PropStable.C54_bundle_refuted: Closed under the global context
PropStable.C54_empty_refuted: Closed under the global context
PropStable.C55_match: Closed under the global context
PropStable.C55_flow: Closed under the global context
PropStable.C55_match_only: Closed under the global context
PropStable.C55_group: Closed under the global context
PropStable.C55_injective: Closed under the global context
PropStable.C55_register_refuted: Closed under the global context
PropCli.C56_tcp: Closed under the global context
PropCli.C56_unix: Closed under the global context
PropCli.C56_tcp_only: Closed under the global context
PropCli.C56_unix_only: Closed under the global context
PropCli.C56_none: Closed under the global context
PropCli.C56_refuses: Closed under the global context
PropCli.C56_runs: Closed under the global context
PropCli.C56_unreachable: Closed under the global context
PropCli.C56_trailing_refuted: Closed under the global context
PropGram.C57_grammar: Closed under the global context
PropGram.C57_value: Closed under the global context
PropGram.C57_complete: Closed under the global context
PropGram.C57_exactly: Closed under the global context
PropGram.C57_refused: Closed under the global context
PropGram.C57_unambiguous: Closed under the global context
PropGram.C57_unread: Closed under the global context
PropGram.C57_all_read_refuted: Closed under the global context
PropGram.C57_junk_refuted: Closed under the global context
PropShow.C58_shown: Closed under the global context
PropShow.C58_exactly: Closed under the global context
PropShow.C58_printed: Closed under the global context
PropShow.C58_refused: Closed under the global context
PropShow.C58_quoted_bytes: Closed under the global context
PropShow.C58_short_refuted: Closed under the global context
PropShowOfp.C59_shown: Closed under the global context
PropShowOfp.C59_exactly: Closed under the global context
PropShowOfp.C59_printed: Closed under the global context
PropShowOfp.C59_endless: Closed under the global context
PropShowOfp.C59_refused: Closed under the global context
PropShowOfp.C59_beyond_refuted: Closed under the global context
PropShowMsg.C60_insts_shown: Closed under the global context
PropShowMsg.C60_insts_exactly: Closed under the global context
PropShowMsg.C60_insts_printed: Closed under the global context
PropShowMsg.C60_insts_endless: Closed under the global context
PropShowMsg.C60_insts_refused: Closed under the global context
PropShowMsg.C60_flow_shown: Closed under the global context
PropShowMsg.C60_flow_exactly: Closed under the global context
PropShowMsg.C60_flow_printed: Closed under the global context
PropShowMsg.C60_flow_endless: Closed under the global context
PropShowMsg.C60_flow_refused: Closed under the global context
PropShowMsg.C60_beyond_refuted: Closed under the global context
PropShowMsg.C61_group_shown: Closed under the global context
PropShowMsg.C61_group_exactly: Closed under the global context
PropShowMsg.C61_group_printed: Closed under the global context
PropShowMsg.C61_group_endless: Closed under the global context
PropShowMsg.C61_group_refused: Closed under the global context
PropShowMsg.C61_flows_shown: Closed under the global context
PropShowMsg.C61_flows_exactly: Closed under the global context
PropShowMsg.C61_flows_printed: Closed under the global context
PropShowMsg.C61_flows_endless: Closed under the global context
PropShowMsg.C61_flows_refused: Closed under the global context
PropShowMsg.C61_descs_shown: Closed under the global context
PropShowMsg.C61_descs_exactly: Closed under the global context
PropShowMsg.C61_descs_printed: Closed under the global context
PropShowMsg.C61_descs_endless: Closed under the global context
PropShowMsg.C61_descs_refused: Closed under the global context
PropShowMsg.C61_stats: Closed under the global context
PropShowMsg.C61_stats_end: Closed under the global context
PropActText.C62_grammar: Closed under the global context
PropActText.C62_complete: Closed under the global context
PropActText.C62_exactly: Closed under the global context
PropActText.C62_refused: Closed under the global context
PropActText.C62_unambiguous: Closed under the global context
PropActText.C62_rest: Closed under the global context
PropActText.C62_covers: Closed under the global context
PropActText.C62_junk_refuted: Closed under the global context
PropActText.C62_slave_type_refuted: Closed under the global context
PropActText.C62_slave_names_refuted: Closed under the global context
PropActText.C62_resubmit_table_refuted: Closed under the global context
PropFlowText.C63_grammar: Closed under the global context
PropFlowText.C63_complete: Closed under the global context
PropFlowText.C63_exactly: Closed under the global context
PropFlowText.C63_refused: Closed under the global context
PropFlowText.C63_unambiguous: Closed under the global context
PropFlowText.C63_covers: Closed under the global context
PropFlowText.C63_junk_refuted: Closed under the global context
PropFlowText.C63_metadata_refuted: Closed under the global context
PropFlowText.C64_grammar: Closed under the global context
PropFlowText.C64_complete: Closed under the global context
PropFlowText.C64_exactly: Closed under the global context
PropFlowText.C64_refused: Closed under the global context
PropFlowText.C64_unambiguous: Closed under the global context
PropFlowText.C64_covers: Closed under the global context
PropFlowText.C64_stray_refuted: Closed under the global context
PropFlowText.C64_bucket_word_refuted: Closed under the global context
PropMpText.C65_grammar: Closed under the global context
PropMpText.C65_complete: Closed under the global context
PropMpText.C65_exactly: Closed under the global context
PropMpText.C65_refused: Closed under the global context
PropMpText.C65_unambiguous: Closed under the global context
PropMpText.C65_covers: Closed under the global context
PropMpText.C65_ignored_refuted: Closed under the global context
PropMpText.C66_grammar: Closed under the global context
PropMpText.C66_complete: Closed under the global context
PropMpText.C66_exactly: Closed under the global context
PropMpText.C66_refused: Closed under the global context
PropMpText.C66_unambiguous: Closed under the global context
PropMpText.C66_covers: Closed under the global context
PropMpText.C66_dropped_refuted: Closed under the global context
PropMpText.C67_exactly: Closed under the global context
PropMpText.C67_refused: Closed under the global context
PropMpText.C67_unambiguous: Closed under the global context
PropMpText.C67_covers: Closed under the global context
PropMpText.C67_dropped_refuted: Closed under the global context
PropRate.C68_megabits: Closed under the global context
PropRate.C68_kilobits: Closed under the global context
PropRate.C68_digits_refuted: Closed under the global context
PropRate.C68_fits_refuted: Closed under the global context
PropRate.C68_nearest: Closed under the global context
PropMpStable.C69_flow: Closed under the global context
PropMpStable.C69_flow_range: Closed under the global context
PropMpStable.C69_desc: Closed under the global context
PropMpStable.C69_desc_range: Closed under the global context
PropMpStable.C69_tunnel_refuted: Closed under the global context
PropMpStable.C70_flow: Closed under the global context
PropMpStable.C70_settles: Closed under the global context
PropMpStable.C70_desc: Closed under the global context
PropMpStable.C70_group: Closed under the global context
PropMpStable.C70_priority_refuted: Closed under the global context
PropMpStable.C70_all_refuted: Closed under the global context
PropEnds.C71_act: Closed under the global context
PropEnds.C71_flow: Closed under the global context
PropEnds.C71_group: Closed under the global context
PropEnds.C71_mpflow: Closed under the global context
PropEnds.C71_mpdesc: Closed under the global context
PropEnds.C71_mpstats: Closed under the global context
PropEnds.C71_succeeds_refuted: Closed under the global context
PropRefuse.C72_match: Closed under the global context
PropRefuse.C72_act: Closed under the global context
PropRefuse.C72_flow: Closed under the global context
PropRefuse.C72_group: Closed under the global context
PropRefuse.C72_long: Closed under the global context
PropRefuse.C72_mpflow: Closed under the global context
PropRefuse.C72_mpdesc: Closed under the global context
PropRefuse.C72_mpstats: Closed under the global context
PropRefuse.C73_match: Closed under the global context
PropRefuse.C73_acts_raise: Closed under the global context
PropRefuse.C73_insts: Closed under the global context
PropRefuse.C73_flow: Closed under the global context
PropRefuse.C73_group: Closed under the global context
PropRefuse.C73_mpflow: Closed under the global context
PropRefuse.C73_mpdesc: Closed under the global context
PropRefuse.C73_mpstats: Closed under the global context
PropRefuse.C73_names: Closed under the global context
PropReload.C74_rule: Closed under the global context
PropReload.C74_add: Closed under the global context
PropReload.C74_delete: Closed under the global context
PropReload.C74_delete_refuted: Closed under the global context
PropReload.C74_reply: Closed under the global context
PropReload.C74_counters_refuted: Closed under the global context
PropReload.C74_counters: Closed under the global context
PropReload.C74_group: Closed under the global context
PropReload.C74_groups: Closed under the global context
PropInject.C75_match: Closed under the global context
PropInject.C75_act: Closed under the global context
PropInject.C75_acts: Closed under the global context
PropInject.C75_flow: Closed under the global context
PropInject.C75_group: Closed under the global context
PropInject.C75_mpflow: Closed under the global context
PropInject.C75_mpdesc: Closed under the global context
PropInject.C75_mpstats: Closed under the global context
PropInject.C75_flow_texts: Closed under the global context
PropInject.C75_group_texts: Closed under the global context
PropInject.C75_long_refuted: Closed under the global context
PropQp.C76_quoted: Closed under the global context
PropQp.C76_short: Closed under the global context
PropQp.C76_match: Closed under the global context
PropQp.C76_acts: Closed under the global context
PropQp.C76_insts: Closed under the global context
PropQp.C76_flow: Closed under the global context
PropQp.C76_group: Closed under the global context
PropQp.C76_flows: Closed under the global context
PropQp.C76_descs: Closed under the global context
PropQp.C76_eol_refuted: Closed under the global context
PropUnknown.C77_field: Closed under the global context
PropUnknown.C77_entry: Closed under the global context
PropUnknown.C77_instruction: Closed under the global context
PropUnknown.C77_action: Closed under the global context
PropUnknown.C77_set: Closed under the global context
PropUnknown.C77_set_call: Closed under the global context
PropIds.C78_exactly: Closed under the global context
PropIds.C78_read: Closed under the global context
PropIds.C78_unambiguous: Closed under the global context
PropIds.C78_shown: Closed under the global context
PropIds.C78_refused: Closed under the global context
PropIds.C78_normal: Closed under the global context
PropIds.C78_typo_refuted: Closed under the global context
PropCompose.C79_match: Closed under the global context
PropCompose.C79_comma: Closed under the global context
PropCompose.C79_rule: Closed under the global context
PropCompose.C79_continue: Closed under the global context
PropCompose.C79_group: Closed under the global context
PropCompose.C79_plain: Closed under the global context
PropCompose.C79_unfinished_refuted: Closed under the global context
PropCompose.C79_instruction_refuted: Closed under the global context
PropCompose.C79_wants_refuted: Closed under the global context
PropCompose.C79_group_refuted: Closed under the global context
PropJoin.C80_match: Closed under the global context
PropJoin.C80_actions: Closed under the global context
PropJoin.C80_instructions: Closed under the global context
PropJoin.C80_tail: Closed under the global context
PropJoin.C80_group: Closed under the global context
PropJoin.C80_bucket_refuted: Closed under the global context
PropJoin.C80_id_refuted: Closed under the global context
PropJoin.C80_header_refuted: Closed under the global context
PropJoin.C80_set_refuted: Closed under the global context
PropMpJoin.C81_flow_lines: Closed under the global context
PropMpJoin.C81_desc_lines: Closed under the global context
PropMpJoin.C81_stat_lines: Closed under the global context
PropMpJoin.C81_flow_entries: Closed under the global context
PropMpJoin.C81_desc_entries: Closed under the global context
PropMpJoin.C81_stat_entries: Closed under the global context
PropMpJoin.C81_flow_parts: Closed under the global context
PropMpJoin.C81_desc_parts: Closed under the global context
PropMpJoin.C81_stat_parts: Closed under the global context
PropMpJoin.C81_newline_refuted: Closed under the global context
PropMpJoin.C81_match_refuted: Closed under the global context
PropNames.C82_move: Closed under the global context
PropNames.C82_multipath: Closed under the global context
PropNames.C82_load: Closed under the global context
PropNames.C82_output: Closed under the global context
PropNames.C82_learn: Closed under the global context
PropNames.C82_bundle_refuted: Closed under the global context
PropNames.C82_bundle_load_refuted: Closed under the global context
PropNames.C82_output_refuted: Closed under the global context
PropFit.C83_rule: Closed under the global context
PropFit.C83_group: Closed under the global context
PropFit.C83_action: Closed under the global context
PropFit.C83_overwritten_refuted: Closed under the global context
PropFit.C83_called: Closed under the global context
PropFit.C83_assigned: Closed under the global context
PropFit.C83_first: Closed under the global context
PropFit.C83_behind: Closed under the global context
