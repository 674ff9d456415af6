{
 "claims": [
  {
   "property": "C01",
   "status": "proved",
   "theorems": [
    "C01_lossless",
    "C01_progress"
   ],
   "note": "Concatenation and strict progress, for every text."
  },
  {
   "property": "C02",
   "status": "proved",
   "theorems": [
    "C02_boundary",
    "C02_unfinished",
    "C02_exclusive"
   ],
   "note": "Soundness of the token boundary for every text, and the converse for finished (C03) and unfinished tokens."
  },
  {
   "property": "C03",
   "status": "proved",
   "theorems": [
    "C03_atomic"
   ],
   "note": "For every lead, token and continuation of the bracket grammar."
  },
  {
   "property": "C04",
   "status": "proved",
   "theorems": [
    "C04_plain",
    "C04_call",
    "C04_trailing",
    "C04_open",
    "C04_cases"
   ],
   "note": "All four shapes a text can have, shown exhaustive by C04_cases."
  },
  {
   "property": "C05",
   "status": "proved",
   "theorems": [
    "C05_decimal",
    "C05_hex"
   ],
   "note": "Decimal, hexadecimal and zero-padded forms equal the standard library's numerals and are read back."
  },
  {
   "property": "C06",
   "status": "proved",
   "theorems": [
    "C06_exact",
    "C06_error"
   ],
   "note": "parseInt returns (v,l) iff the text starts with such a literal; otherwise ValueError."
  },
  {
   "property": "C07",
   "status": "proved",
   "theorems": [
    "C07_str2oxm",
    "C07_str2oxmid",
    "C07_str2act",
    "C07_str2mod",
    "C07_str2group",
    "C07_text2mpflow",
    "C07_text2mpgroupdesc",
    "C07_text2mpgroup"
   ],
   "note": "Every text; the loops are bounded by the length of what is left."
  },
  {
   "property": "C08",
   "status": "proved",
   "theorems": [
    "C08_plain",
    "C08_masked",
    "C08_read",
    "C08_registers_refuted",
    "C08_ip_frag_refuted",
    "C08_mask_dropped_refuted",
    "C08_ct_refuted"
   ],
   "note": "All integer fields of the registry, both directions; the exceptions the statement names are theorems too (_refuted), as is nxm_ct_mark/nxm_ct_label."
  },
  {
   "property": "C09",
   "status": "proved",
   "theorems": [
    "C09_port",
    "C09_names"
   ],
   "note": "Both widths, every port number, every reserved name in both cases."
  },
  {
   "property": "C10",
   "status": "proved",
   "theorems": [
    "C10_mac",
    "C10_masked"
   ],
   "note": "Every MAC field, address and mask."
  },
  {
   "property": "C11",
   "status": "proved",
   "theorems": [
    "C11_ipv4",
    "C11_masked"
   ],
   "note": "Every IPv4 field, address and dotted mask."
  },
  {
   "property": "C12",
   "status": "proved",
   "theorems": [
    "C12_ipv6",
    "C12_masked",
    "C12_spellings"
   ],
   "note": "Every IPv6 field, address and mask; other spellings are read too."
  },
  {
   "property": "C13",
   "status": "proved",
   "theorems": [
    "C13_plain",
    "C13_masked",
    "C13_vht",
    "C13_vht_masked",
    "C13_le_mask_refuted"
   ],
   "note": "Every payload of the named fields; the little-endian mask (TypeError) and the VHT value without MCS are shown not to round-trip."
  },
  {
   "property": "C14",
   "status": "proved",
   "theorems": [
    "C14_hex",
    "C14_masked",
    "C14_read",
    "C14_padded"
   ],
   "note": "Every payload that fits in a TLV; reading at any length."
  },
  {
   "property": "C15",
   "status": "proved",
   "theorems": [
    "C15_ssid",
    "C15_masked"
   ],
   "note": "Every SSID of the alphabet, with or without mask; cases outside it are shown to fail."
  },
  {
   "property": "C16",
   "status": "proved",
   "theorems": [
    "C16_print",
    "C16_each",
    "C16_parse",
    "C16_roundtrip",
    "C16_first",
    "C16_first_print"
   ],
   "note": "Induction on the list; the texts allowed between items are those of the relation written."
  },
  {
   "property": "C17",
   "status": "proved",
   "theorems": [
    "C17_framed"
   ],
   "note": "For every accepted text; the class and field are those of the registry, and nxm_ct_label with 4 bytes."
  },
  {
   "property": "C18",
   "status": "proved",
   "theorems": [
    "C18_unique",
    "C18_name_to_id",
    "C18_id_to_name",
    "C18_frag_refuted",
    "C18_unknown"
   ],
   "note": "Uniqueness by a sweep of the finite registry; lists of any length by induction."
  },
  {
   "property": "C19",
   "status": "proved",
   "theorems": [
    "C19_truncated",
    "C19_masks"
   ],
   "note": "Every literal of the grammar of C06, value and mask."
  },
  {
   "property": "C20",
   "status": "proved",
   "theorems": [
    "C20_notations",
    "C20_masks"
   ],
   "note": "The four notations in either case; an example shows the \".\" also matches any character."
  },
  {
   "property": "C21",
   "status": "partial",
   "theorems": [
    "C21_ipv4_refuted",
    "C21_ipv6_refuted",
    "C21_ipv6_128",
    "C21_ipv4_0"
   ],
   "note": "The property is false of the code: an IPv4 /n is encoded as 0.0.0.n (right for n = 0 only), an IPv6 /n raises except for n = 128. Proved for /0 and /128."
  },
  {
   "property": "C22",
   "status": "proved",
   "theorems": [
    "C22_roundtrip",
    "C22_written",
    "C22_max_len_refuted",
    "C22_set_nw_ttl_refuted"
   ],
   "note": "Every value, every spelling of the written form. C22_max_len_refuted and C22_set_nw_ttl_refuted are the exceptions (max_len of other ports is not printed; set_nw_ttl has 5 bytes)."
  },
  {
   "property": "C23",
   "status": "proved",
   "theorems": [
    "C23_encodes",
    "C23_function",
    "C23_roundtrip",
    "C23_padding"
   ],
   "note": "Both styles of writing; C23_padding spells out the padding. The empty SSID is the exception (C23_empty_refuted)."
  },
  {
   "property": "C24",
   "status": "proved",
   "theorems": [
    "C24_roundtrip",
    "C24_written",
    "C24_tunnel64_refuted",
    "C24_learn_refuted"
   ],
   "note": "Every parameter value in the printable range; what lies outside it is shown by the _refuted theorems (set_tunnel64 below 2^32, reg_load masks and registers, reg_move sizes, output_reg offsets, bundle slaves, learn)."
  },
  {
   "property": "C25",
   "status": "proved",
   "theorems": [
    "C25_framed"
   ],
   "note": "Every accepted text; also that the empty result means an unknown name or an empty argument list, and what a set_field action contains."
  },
  {
   "property": "C26",
   "status": "proved",
   "theorems": [
    "C26_same",
    "C26_set_field"
   ],
   "note": "Errors included; names of any field. The two actions left out by the statement are shown to differ (_refuted)."
  },
  {
   "property": "C27",
   "status": "proved",
   "theorems": [
    "C27_print",
    "C27_encodes",
    "C27_bytes"
   ],
   "note": "Printing: the comma-join; reading: the flow message ends with the concatenation of the actions, for every way of writing the list."
  },
  {
   "property": "C28",
   "status": "proved",
   "theorems": [
    "C28_oxm2str",
    "C28_oxmid2str",
    "C28_action",
    "C28_actions",
    "C28_actions_forever",
    "C28_instruction",
    "C28_instructions",
    "C28_instructions_forever",
    "C28_flow"
   ],
   "note": "Both directions for every byte string; C28_actions_forever and C28_instructions_forever show that no step bound is enough."
  },
  {
   "property": "C29",
   "status": "proved",
   "theorems": [
    "C29_framed"
   ],
   "note": "Every accepted text; the match and every instruction are described down to the actions inside them."
  },
  {
   "property": "C30",
   "status": "proved",
   "theorems": [
    "C30_encodes",
    "C30_canonical"
   ],
   "note": "Every way of writing the flow (C30_encodes) and the canonical text (C30_canonical)."
  },
  {
   "property": "C31",
   "status": "proved",
   "theorems": [
    "C31_prints"
   ],
   "note": "Every flow whose fields and actions are printable; C31_set_nw_ttl_refuted shows two actions that are not."
  },
  {
   "property": "C32",
   "status": "proved",
   "theorems": [
    "C32_binary",
    "C32_text",
    "C32_written",
    "C32_flags_refuted"
   ],
   "note": "Both directions, all commands and xids; C32_flags_refuted: with any other flag bit the round trip fails."
  },
  {
   "property": "C33",
   "status": "proved",
   "theorems": [
    "C33_defaults",
    "C33_delete",
    "C33_other"
   ],
   "note": "From the parse tree of every accepted text: a field keeps its default unless its name occurs in the text."
  },
  {
   "property": "C34",
   "status": "proved",
   "theorems": [
    "C34_alias"
   ],
   "note": "After every well-formed beginning and before every continuation, exceptions included."
  },
  {
   "property": "C35",
   "status": "proved",
   "theorems": [
    "C35_accepted",
    "C35_entry",
    "C35_action",
    "C35_instruction",
    "C35_after_instruction"
   ],
   "note": "Unknown entries, actions, set_ fields and instructions after every well-formed beginning, and the converse for accepted texts; the stray \"=\" and the empty SSID are shown by the _refuted examples."
  },
  {
   "property": "C36",
   "status": "proved",
   "theorems": [
    "C36_separators"
   ],
   "note": "Any two spellings of the same flow give the same result."
  },
  {
   "property": "C37",
   "status": "proved",
   "theorems": [
    "C37_last",
    "C37_order"
   ],
   "note": "The result depends only on the last setting of each field and on the set of flags; permutations are a corollary. C37_cookie_refuted shows the mask that stays."
  },
  {
   "property": "C38",
   "status": "proved",
   "theorems": [
    "C38_encodes",
    "C38_canonical",
    "C38_prints",
    "C38_binary",
    "C38_text"
   ],
   "note": "Reading: every spelling (C38_encodes) and the canonical text; printing and both round trips. The _refuted examples are the buckets excluded by the statement and the separator that becomes a bucket."
  },
  {
   "property": "C39",
   "status": "proved",
   "theorems": [
    "C39_framed"
   ],
   "note": "Every accepted text; buckets are described down to the actions inside them."
  },
  {
   "property": "C40",
   "status": "partial",
   "theorems": [
    "C40_shown",
    "C40_every_bucket",
    "C40_refuted"
   ],
   "note": "The property is false of the code: a last bucket without actions is not shown (C40_refuted, for every such group). Proved: the exact text for every group (C40_shown), and that nothing is dropped when the last bucket has an action."
  },
  {
   "property": "C41",
   "status": "proved",
   "theorems": [
    "C41_encodes",
    "C41_prints",
    "C41_text",
    "C41_binary",
    "C41_reread",
    "C41_request",
    "C41_priority_refuted",
    "C41_empty_refuted",
    "C41_request_refuted",
    "C41_long_refuted"
   ],
   "note": "Reading: every spelling; printing: any number of messages; C41_reread says what comes back of every entry. The _refuted theorems are the exceptions of the statement."
  },
  {
   "property": "C42",
   "status": "proved",
   "theorems": [
    "C42_encodes",
    "C42_prints",
    "C42_text",
    "C42_shown",
    "C42_binary",
    "C42_request",
    "C42_empty_refuted",
    "C42_long_refuted"
   ],
   "note": "Reading: every spelling; printing: any number of messages and any bucket (C42_prints). The _refuted theorems are the exceptions of the statement, and text after an unknown name that is dropped."
  },
  {
   "property": "C43",
   "status": "proved",
   "theorems": [
    "C43_encodes",
    "C43_prints",
    "C43_shown",
    "C43_text",
    "C43_binary",
    "C43_request",
    "C43_request_prints",
    "C43_all_refuted",
    "C43_bare_refuted",
    "C43_long_refuted"
   ],
   "note": "Reading: every spelling; printing: any number of messages and any entry (C43_prints); requests both ways. The _refuted theorems are the exceptions of the statement."
  },
  {
   "property": "C44",
   "status": "proved",
   "theorems": [
    "C44_flow",
    "C44_desc",
    "C44_desc_request",
    "C44_group",
    "C44_group_request"
   ],
   "note": "Every accepted text, replies and requests; the entries are described down to the match fields, instructions, buckets and actions inside them. C44_request_refuted: a flow request of several lines has several bodies."
  },
  {
   "property": "C45",
   "status": "partial",
   "theorems": [
    "C45_flow",
    "C45_flow_call",
    "C45_group",
    "C45_group_refuted",
    "C45_group_without_id"
   ],
   "note": "Proved for flow messages, and for the values group2extra returns; false for the keyword form of group messages: str2group takes no group_id (C45_group_refuted, for every message). Without that key the call is right."
  },
  {
   "property": "C46",
   "status": "partial",
   "theorems": [
    "C46_read",
    "C46_only_then",
    "C46_header_refuted",
    "C46_body_refuted"
   ],
   "note": "The property is false of the code. Proved: the messages are read exactly if and only if the cuts are at message and header ends (C46_only_then); what happens at every other cut (C46_header_refuted, C46_body_refuted)."
  },
  {
   "property": "C47",
   "status": "partial",
   "theorems": [
    "C47_returns",
    "C47_waits",
    "C47_refuted",
    "C47_never_fails"
   ],
   "note": "Proved: success with the barrier reply. The failure half is false: no OpenFlow message makes the tool report a failure (C47_never_fails), in particular not an error for its command (C47_refuted), because the length field is compared instead of the xid."
  },
  {
   "property": "C48",
   "status": "proved",
   "theorems": [
    "C48_prints",
    "C48_raises",
    "C48_waits",
    "C48_flows",
    "C48_groups"
   ],
   "note": "Any mixture of replies and other messages; C48_flows and C48_groups go down to the printed entries. C48_xid_refuted: neither the xid nor the other flag bits are looked at."
  },
  {
   "property": "C49",
   "status": "proved",
   "theorems": [
    "C49_flow",
    "C49_group",
    "C49_rejected",
    "C49_unknown",
    "C49_dump_flows",
    "C49_dump_groups",
    "C49_independent",
    "C49_whole"
   ],
   "note": "C49_whole is the whole run of a flow command, from its arguments to the bytes sent and the barrier reply."
  },
  {
   "property": "C50",
   "status": "proved",
   "theorems": [
    "C50_written",
    "C50_prints",
    "C50_roundtrip",
    "C50_words_refuted",
    "C50_padding_refuted",
    "C50_long_refuted",
    "C50_quoted"
   ],
   "note": "Reading: both styles, any blanks around; printing: any bytes. The _refuted theorems are the exceptions of the statement, each for all inputs; C50_dot_refuted: \".\", and the empty note."
  },
  {
   "property": "C51",
   "status": "proved",
   "theorems": [
    "C51_roundtrip",
    "C51_written",
    "C51_range_refuted"
   ],
   "note": "C51_written: every spelling; C51_range_refuted: every range with a > 0 (and 0). C51_whole_refuted and C51_mask_refuted: a destination without range counts twice its bits, and its identifier has the mask flag."
  },
  {
   "property": "C52",
   "status": "proved",
   "theorems": [
    "C52_roundtrip",
    "C52_written",
    "C52_fixed_refuted",
    "C52_output_refuted"
   ],
   "note": "C52_written: every spelling of every list; the _refuted theorems for all inputs are the exceptions of the statement. The _refuted examples: an open range, a value that is too large, no arguments."
  },
  {
   "property": "C53",
   "status": "proved",
   "theorems": [
    "C53_padded",
    "C53_ttl_refuted",
    "C53_refuted"
   ],
   "note": "C53_refuted: every such instruction with any rest; C53_ttl_refuted: the 5 bytes of set_nw_ttl."
  },
  {
   "property": "C54",
   "status": "proved",
   "theorems": [
    "C54_flow",
    "C54_match_only",
    "C54_group",
    "C54_tunnel_refuted",
    "C54_bundle_refuted",
    "C54_empty_refuted"
   ],
   "note": "The conclusion for actions needs the exceptions of the statement (regular, no_short; irregular for groups); C54_tunnel_refuted, C54_bundle_refuted and C54_empty_refuted show three of them."
  },
  {
   "property": "C55",
   "status": "proved",
   "theorems": [
    "C55_match",
    "C55_flow",
    "C55_match_only",
    "C55_group",
    "C55_injective",
    "C55_register_refuted"
   ],
   "note": "C55_register_refuted: a field that is not steady."
  },
  {
   "property": "C56",
   "status": "proved",
   "theorems": [
    "C56_tcp",
    "C56_unix",
    "C56_tcp_only",
    "C56_unix_only",
    "C56_none",
    "C56_refuses",
    "C56_runs",
    "C56_unreachable",
    "C56_trailing_refuted"
   ],
   "note": "C56_trailing_refuted: the exceptions of the statement, for every address."
  },
  {
   "property": "C57",
   "status": "proved",
   "theorems": [
    "C57_grammar",
    "C57_value",
    "C57_complete",
    "C57_exactly",
    "C57_refused",
    "C57_unambiguous",
    "C57_unread",
    "C57_all_read_refuted",
    "C57_junk_refuted"
   ],
   "note": "C57_all_read_refuted and C57_junk_refuted show the exceptions of the statement; C57_exactly is the full equivalence."
  },
  {
   "property": "C58",
   "status": "proved",
   "theorems": [
    "C58_shown",
    "C58_exactly",
    "C58_printed",
    "C58_refused",
    "C58_quoted_bytes",
    "C58_short_refuted"
   ],
   "note": "C58_shown: what is printed; C58_printed, C58_refused: when. C58_exactly gives the text in the other direction for lists without SSID. C58_short_refuted: cut-off integers."
  },
  {
   "property": "C59",
   "status": "proved",
   "theorems": [
    "C59_shown",
    "C59_exactly",
    "C59_printed",
    "C59_endless",
    "C59_refused",
    "C59_beyond_refuted"
   ],
   "note": "C59_shown: what is printed; C59_printed, C59_endless, C59_refused: which of the three happens. C59_exactly: the text is the one of the specification when nothing is quoted. C59_beyond_refuted: set_field reads beyond its length."
  },
  {
   "property": "C60",
   "status": "proved",
   "theorems": [
    "C60_insts_shown",
    "C60_insts_exactly",
    "C60_insts_printed",
    "C60_insts_endless",
    "C60_insts_refused",
    "C60_flow_shown",
    "C60_flow_exactly",
    "C60_flow_printed",
    "C60_flow_endless",
    "C60_flow_refused",
    "C60_beyond_refuted"
   ],
   "note": "C60_insts_* for instructions, C60_flow_* for flow rules: shown (what is printed), printed, endless, refused (which of the three happens), exactly (the text is the one of the specification when nothing is quoted). C60_beyond_refuted: a match read from behind the message."
  },
  {
   "property": "C61",
   "status": "proved",
   "theorems": [
    "C61_group_shown",
    "C61_group_exactly",
    "C61_group_printed",
    "C61_group_endless",
    "C61_group_refused",
    "C61_flows_shown",
    "C61_flows_exactly",
    "C61_flows_printed",
    "C61_flows_endless",
    "C61_flows_refused",
    "C61_descs_shown",
    "C61_descs_exactly",
    "C61_descs_printed",
    "C61_descs_endless",
    "C61_descs_refused",
    "C61_stats",
    "C61_stats_end"
   ],
   "note": "C61_group_*, C61_flows_*, C61_descs_* as in C60; C61_stats and C61_stats_end for group counters, where nothing is quoted and nothing is endless."
  },
  {
   "property": "C62",
   "status": "proved",
   "theorems": [
    "C62_grammar",
    "C62_complete",
    "C62_exactly",
    "C62_refused",
    "C62_unambiguous",
    "C62_rest",
    "C62_covers",
    "C62_junk_refuted",
    "C62_slave_type_refuted",
    "C62_slave_names_refuted",
    "C62_resubmit_table_refuted"
   ],
   "note": "C62_exactly is the equivalence, C62_grammar and C62_complete its two halves; C62_*_refuted show what the grammar takes beyond C24."
  },
  {
   "property": "C63",
   "status": "proved",
   "theorems": [
    "C63_grammar",
    "C63_complete",
    "C63_exactly",
    "C63_refused",
    "C63_unambiguous",
    "C63_covers",
    "C63_junk_refuted",
    "C63_metadata_refuted"
   ],
   "note": "C63_exactly is the equivalence, C63_grammar and C63_complete its two halves; C63_junk_refuted and C63_metadata_refuted show what the grammar takes beyond C30."
  },
  {
   "property": "C64",
   "status": "proved",
   "theorems": [
    "C64_grammar",
    "C64_complete",
    "C64_exactly",
    "C64_refused",
    "C64_unambiguous",
    "C64_covers",
    "C64_stray_refuted",
    "C64_bucket_word_refuted"
   ],
   "note": "C64_exactly, C64_grammar and C64_complete as in C63; C64_stray_refuted and C64_bucket_word_refuted: separators alone make a bucket, \"@bucket\" alone does not."
  },
  {
   "property": "C65",
   "status": "proved",
   "theorems": [
    "C65_grammar",
    "C65_complete",
    "C65_exactly",
    "C65_refused",
    "C65_unambiguous",
    "C65_covers",
    "C65_ignored_refuted"
   ],
   "note": "C65_exactly is the equivalence, C65_grammar and C65_complete its two halves; C65_ignored_refuted: settings that are silently dropped."
  },
  {
   "property": "C66",
   "status": "proved",
   "theorems": [
    "C66_grammar",
    "C66_complete",
    "C66_exactly",
    "C66_refused",
    "C66_unambiguous",
    "C66_covers",
    "C66_dropped_refuted"
   ],
   "note": "C66_exactly, C66_grammar and C66_complete as in C65; C66_dropped_refuted: the rest of a line behind an unknown word with \"@\" is dropped."
  },
  {
   "property": "C67",
   "status": "proved",
   "theorems": [
    "C67_exactly",
    "C67_refused",
    "C67_unambiguous",
    "C67_covers",
    "C67_dropped_refuted"
   ],
   "note": "C67_exactly is the equivalence for all texts; C67_dropped_refuted: the rest of a line behind an unknown NAME=VALUE is dropped."
  },
  {
   "property": "C68",
   "status": "proved",
   "theorems": [
    "C68_megabits",
    "C68_kilobits",
    "C68_digits_refuted",
    "C68_fits_refuted",
    "C68_nearest"
   ],
   "note": "C68_digits_refuted and C68_fits_refuted show that the limits on the number of digits are needed."
  },
  {
   "property": "C69",
   "status": "proved",
   "theorems": [
    "C69_flow",
    "C69_flow_range",
    "C69_desc",
    "C69_desc_range",
    "C69_tunnel_refuted"
   ],
   "note": "The exceptions are those of C54 (irregular, no_short); C69_flow_range and C69_desc_range give the ranges, C69_tunnel_refuted shows an irregular entry."
  },
  {
   "property": "C70",
   "status": "proved",
   "theorems": [
    "C70_flow",
    "C70_settles",
    "C70_desc",
    "C70_group",
    "C70_priority_refuted",
    "C70_all_refuted"
   ],
   "note": "C70_settles: a second round changes nothing; C70_priority_refuted and C70_all_refuted show the exceptions of the statement."
  },
  {
   "property": "C71",
   "status": "proved",
   "theorems": [
    "C71_act",
    "C71_flow",
    "C71_group",
    "C71_mpflow",
    "C71_mpdesc",
    "C71_mpstats",
    "C71_succeeds_refuted"
   ],
   "note": "C71_succeeds_refuted: a message that was built and that the printer refuses; C71_case: a change of four bytes makes printing endless."
  },
  {
   "property": "C72",
   "status": "proved",
   "theorems": [
    "C72_match",
    "C72_act",
    "C72_flow",
    "C72_group",
    "C72_long",
    "C72_mpflow",
    "C72_mpdesc",
    "C72_mpstats"
   ],
   "note": "Each set is exact: nothing else for any text (Refuse.v), and one text per exception. Python's recursion limit and CPython's limit on the digits of a number are not modelled (DESIGN.md section 2)."
  },
  {
   "property": "C73",
   "status": "proved",
   "theorems": [
    "C73_match",
    "C73_acts_raise",
    "C73_insts",
    "C73_flow",
    "C73_group",
    "C73_mpflow",
    "C73_mpdesc",
    "C73_mpstats",
    "C73_names"
   ],
   "note": "Each set is exact: nothing else for any bytes (RefuseShow.v), and one byte string per exception."
  },
  {
   "property": "C74",
   "status": "proved",
   "theorems": [
    "C74_rule",
    "C74_add",
    "C74_delete",
    "C74_delete_refuted",
    "C74_reply",
    "C74_counters_refuted",
    "C74_counters",
    "C74_group",
    "C74_groups"
   ],
   "note": "C74_counters_refuted: a line with counters is refused; C74_delete_refuted: deleting a dumped rule of table 0 addresses all tables. Both are part of the statement."
  },
  {
   "property": "C75",
   "status": "proved",
   "theorems": [
    "C75_match",
    "C75_act",
    "C75_acts",
    "C75_flow",
    "C75_group",
    "C75_mpflow",
    "C75_mpdesc",
    "C75_mpstats",
    "C75_flow_texts",
    "C75_group_texts",
    "C75_long_refuted"
   ],
   "note": "C75_long_refuted: a match field over 255 bytes can swallow the next one; the limit is part of the statement."
  },
  {
   "property": "C76",
   "status": "proved",
   "theorems": [
    "C76_quoted",
    "C76_short",
    "C76_match",
    "C76_acts",
    "C76_insts",
    "C76_flow",
    "C76_group",
    "C76_flows",
    "C76_descs",
    "C76_eol_refuted"
   ],
   "note": "Equivalences for all bytes; they close the gap that C58-C61 leave for quoted names. C76_eol_refuted: different names can have the same text."
  },
  {
   "property": "C77",
   "status": "proved",
   "theorems": [
    "C77_field",
    "C77_entry",
    "C77_instruction",
    "C77_action",
    "C77_set",
    "C77_set_call"
   ],
   "note": "Equivalences, with and without brackets."
  },
  {
   "property": "C78",
   "status": "proved",
   "theorems": [
    "C78_exactly",
    "C78_read",
    "C78_unambiguous",
    "C78_shown",
    "C78_refused",
    "C78_normal",
    "C78_typo_refuted"
   ],
   "note": "Equivalences. C78_typo_refuted: misspelt names are dropped without an error. nxm_ip_frag prints as nxm_icmp_type (C18)."
  },
  {
   "property": "C79",
   "status": "proved",
   "theorems": [
    "C79_match",
    "C79_comma",
    "C79_rule",
    "C79_continue",
    "C79_group",
    "C79_plain",
    "C79_unfinished_refuted",
    "C79_instruction_refuted",
    "C79_wants_refuted",
    "C79_group_refuted"
   ],
   "note": "An equation for match texts, exceptions included, and equivalences for rules and groups. C79_unfinished_refuted, C79_instruction_refuted, C79_wants_refuted, C79_group_refuted: the conditions are needed."
  },
  {
   "property": "C80",
   "status": "proved",
   "theorems": [
    "C80_match",
    "C80_actions",
    "C80_instructions",
    "C80_tail",
    "C80_group",
    "C80_bucket_refuted",
    "C80_id_refuted",
    "C80_header_refuted",
    "C80_set_refuted"
   ],
   "note": "Equations, exceptions and endless loops included. C80_id_refuted, C80_header_refuted, C80_set_refuted, C80_bucket_refuted: the conditions are needed."
  },
  {
   "property": "C81",
   "status": "proved",
   "theorems": [
    "C81_flow_lines",
    "C81_desc_lines",
    "C81_stat_lines",
    "C81_flow_entries",
    "C81_desc_entries",
    "C81_stat_entries",
    "C81_flow_parts",
    "C81_desc_parts",
    "C81_stat_parts",
    "C81_newline_refuted",
    "C81_match_refuted"
   ],
   "note": "Equivalences for texts, equations for messages. C81_newline_refuted: a newline at the end is not ignored; C81_match_refuted: a match longer than its entry."
  },
  {
   "property": "C82",
   "status": "proved",
   "theorems": [
    "C82_move",
    "C82_multipath",
    "C82_load",
    "C82_output",
    "C82_learn",
    "C82_bundle_refuted",
    "C82_bundle_load_refuted",
    "C82_output_refuted"
   ],
   "note": "Refusals for every misspelt name; C82_bundle_refuted, C82_bundle_load_refuted, C82_output_refuted: the exact bytes where it is accepted."
  },
  {
   "property": "C83",
   "status": "proved",
   "theorems": [
    "C83_rule",
    "C83_group",
    "C83_action",
    "C83_called",
    "C83_assigned",
    "C83_first",
    "C83_behind",
    "C83_overwritten_refuted"
   ],
   "note": "Rules and groups exactly, with the exception; instructions with one number refused; actions with one number refused, with the exception in brackets and behind \"=\"; C83_overwritten_refuted: what is overwritten is not checked."
  }
 ]
}