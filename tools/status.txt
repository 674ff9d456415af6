# property status note
C01 proved Concatenation and strict progress, for every text.
C02 proved Soundness of the token boundary for every text, and the converse for finished (C03) and unfinished tokens.
C03 proved For every lead, token and continuation of the bracket grammar.
C04 proved All four shapes a text can have, shown exhaustive by C04_cases.
C05 proved Decimal, hexadecimal and zero-padded forms equal the standard library's numerals and are read back.
C06 proved parseInt returns (v,l) iff the text starts with such a literal; otherwise ValueError.
C07 proved Every text; the loops are bounded by the length of what is left.
C08 proved All integer fields of the registry, both directions; the exceptions the statement names are theorems too (_refuted), as is nxm_ct_mark/nxm_ct_label.
C09 proved Both widths, every port number, every reserved name in both cases.
C10 proved Every MAC field, address and mask.
C11 proved Every IPv4 field, address and dotted mask.
C12 proved Every IPv6 field, address and mask; other spellings are read too.
C13 proved Every payload of the named fields; the little-endian mask (TypeError) and the VHT value without MCS are shown not to round-trip.
C14 proved Every payload that fits in a TLV; reading at any length.
C15 proved Every SSID of the alphabet, with or without mask; cases outside it are shown to fail.
C16 proved Induction on the list; the texts allowed between items are those of the relation written.
C17 proved For every accepted text; the class and field are those of the registry, and nxm_ct_label with 4 bytes.
C18 proved Uniqueness by a sweep of the finite registry; lists of any length by induction.
C19 proved Every literal of the grammar of C06, value and mask.
C20 proved The four notations in either case; an example shows the "." also matches any character.
C21 partial The property is false of the code: an IPv4 /n is encoded as 0.0.0.n (right for n = 0 only), an IPv6 /n raises except for n = 128. Proved for /0 and /128.
C22 proved Every value, every spelling of the written form. C22_max_len_refuted and C22_set_nw_ttl_refuted are the exceptions (max_len of other ports is not printed; set_nw_ttl has 5 bytes).
C23 proved Both styles of writing; C23_padding spells out the padding. The empty SSID is the exception (C23_empty_refuted).
C24 proved Every parameter value in the printable range; what lies outside it is shown by the _refuted theorems (set_tunnel64 below 2^32, reg_load masks and registers, reg_move sizes, output_reg offsets, bundle slaves, learn).
C25 proved Every accepted text; also that the empty result means an unknown name or an empty argument list, and what a set_field action contains.
C26 proved Errors included; names of any field. The two actions left out by the statement are shown to differ (_refuted).
C28 proved Both directions for every byte string; C28_actions_forever and C28_instructions_forever show that no step bound is enough.
C27 proved Printing: the comma-join; reading: the flow message ends with the concatenation of the actions, for every way of writing the list.
C29 proved Every accepted text; the match and every instruction are described down to the actions inside them.
C30 proved Every way of writing the flow (C30_encodes) and the canonical text (C30_canonical).
C31 proved Every flow whose fields and actions are printable; C31_set_nw_ttl_refuted shows two actions that are not.
C32 proved Both directions, all commands and xids; C32_flags_refuted: with any other flag bit the round trip fails.
C33 proved From the parse tree of every accepted text: a field keeps its default unless its name occurs in the text.
C34 proved After every well-formed beginning and before every continuation, exceptions included.
C35 proved Unknown entries, actions, set_ fields and instructions after every well-formed beginning, and the converse for accepted texts; the stray "=" and the empty SSID are shown by the _refuted examples.
C36 proved Any two spellings of the same flow give the same result.
C37 proved The result depends only on the last setting of each field and on the set of flags; permutations are a corollary. C37_cookie_refuted shows the mask that stays.
C38 proved Reading: every spelling (C38_encodes) and the canonical text; printing and both round trips. The _refuted examples are the buckets excluded by the statement and the separator that becomes a bucket.
C39 proved Every accepted text; buckets are described down to the actions inside them.
C40 partial The property is false of the code: a last bucket without actions is not shown (C40_refuted, for every such group). Proved: the exact text for every group (C40_shown), and that nothing is dropped when the last bucket has an action.
C45 partial Proved for flow messages, and for the values group2extra returns; false for the keyword form of group messages: str2group takes no group_id (C45_group_refuted, for every message). Without that key the call is right.
C41 proved Reading: every spelling; printing: any number of messages; C41_reread says what comes back of every entry. The _refuted theorems are the exceptions of the statement.
C42 proved Reading: every spelling; printing: any number of messages and any bucket (C42_prints). The _refuted theorems are the exceptions of the statement, and text after an unknown name that is dropped.
C43 proved Reading: every spelling; printing: any number of messages and any entry (C43_prints); requests both ways. The _refuted theorems are the exceptions of the statement.
C44 proved Every accepted text, replies and requests; the entries are described down to the match fields, instructions, buckets and actions inside them. C44_request_refuted: a flow request of several lines has several bodies.
C46 partial The property is false of the code. Proved: the messages are read exactly if and only if the cuts are at message and header ends (C46_only_then); what happens at every other cut (C46_header_refuted, C46_body_refuted).
C47 partial Proved: success with the barrier reply. The failure half is false: no OpenFlow message makes the tool report a failure (C47_never_fails), in particular not an error for its command (C47_refuted), because the length field is compared instead of the xid.
C48 proved Any mixture of replies and other messages; C48_flows and C48_groups go down to the printed entries. C48_xid_refuted: neither the xid nor the other flag bits are looked at.
C49 proved C49_whole is the whole run of a flow command, from its arguments to the bytes sent and the barrier reply.
C50 proved Reading: both styles, any blanks around; printing: any bytes. The _refuted theorems are the exceptions of the statement, each for all inputs; C50_dot_refuted: ".", and the empty note.
C51 proved C51_written: every spelling; C51_range_refuted: every range with a > 0 (and 0). C51_whole_refuted and C51_mask_refuted: a destination without range counts twice its bits, and its identifier has the mask flag.
C52 proved C52_written: every spelling of every list; the _refuted theorems for all inputs are the exceptions of the statement. The _refuted examples: an open range, a value that is too large, no arguments.
C53 proved C53_refuted: every such instruction with any rest; C53_ttl_refuted: the 5 bytes of set_nw_ttl.
C54 proved The conclusion for actions needs the exceptions of the statement (regular, no_short; irregular for groups); C54_tunnel_refuted, C54_bundle_refuted and C54_empty_refuted show three of them.
C55 proved C55_register_refuted: a field that is not steady.
C56 proved C56_trailing_refuted: the exceptions of the statement, for every address.
C57 proved C57_all_read_refuted and C57_junk_refuted show the exceptions of the statement; C57_exactly is the full equivalence.
C58 proved C58_shown: what is printed; C58_printed, C58_refused: when. C58_exactly gives the text in the other direction for lists without SSID. C58_short_refuted: cut-off integers.
C59 proved C59_shown: what is printed; C59_printed, C59_endless, C59_refused: which of the three happens. C59_exactly: the text is the one of the specification when nothing is quoted. C59_beyond_refuted: set_field reads beyond its length.
C60 proved C60_insts_* for instructions, C60_flow_* for flow rules: shown (what is printed), printed, endless, refused (which of the three happens), exactly (the text is the one of the specification when nothing is quoted). C60_beyond_refuted: a match read from behind the message.
C61 proved C61_group_*, C61_flows_*, C61_descs_* as in C60; C61_stats and C61_stats_end for group counters, where nothing is quoted and nothing is endless.
C62 proved C62_exactly is the equivalence, C62_grammar and C62_complete its two halves; C62_*_refuted show what the grammar takes beyond C24.
C63 proved C63_exactly is the equivalence, C63_grammar and C63_complete its two halves; C63_junk_refuted and C63_metadata_refuted show what the grammar takes beyond C30.
C64 proved C64_exactly, C64_grammar and C64_complete as in C63; C64_stray_refuted and C64_bucket_word_refuted: separators alone make a bucket, "@bucket" alone does not.
C65 proved C65_exactly is the equivalence, C65_grammar and C65_complete its two halves; C65_ignored_refuted: settings that are silently dropped.
C66 proved C66_exactly, C66_grammar and C66_complete as in C65; C66_dropped_refuted: the rest of a line behind an unknown word with "@" is dropped.
C67 proved C67_exactly is the equivalence for all texts; C67_dropped_refuted: the rest of a line behind an unknown NAME=VALUE is dropped.
C68 proved C68_digits_refuted and C68_fits_refuted show that the limits on the number of digits are needed.
C69 proved The exceptions are those of C54 (irregular, no_short); C69_flow_range and C69_desc_range give the ranges, C69_tunnel_refuted shows an irregular entry.
C70 proved C70_settles: a second round changes nothing; C70_priority_refuted and C70_all_refuted show the exceptions of the statement.
C71 proved C71_succeeds_refuted: a message that was built and that the printer refuses; C71_case: a change of four bytes makes printing endless.
C72 proved Each set is exact: nothing else for any text (Refuse.v), and one text per exception. Python's recursion limit and CPython's limit on the digits of a number are not modelled (DESIGN.md section 2).
C73 proved Each set is exact: nothing else for any bytes (RefuseShow.v), and one byte string per exception.
C74 proved C74_counters_refuted: a line with counters is refused; C74_delete_refuted: deleting a dumped rule of table 0 addresses all tables. Both are part of the statement.
C75 proved C75_long_refuted: a match field over 255 bytes can swallow the next one; the limit is part of the statement.
C76 proved Equivalences for all bytes; they close the gap that C58-C61 leave for quoted names. C76_eol_refuted: different names can have the same text.
C77 proved Equivalences, with and without brackets.
C78 proved Equivalences. C78_typo_refuted: misspelt names are dropped without an error. nxm_ip_frag prints as nxm_icmp_type (C18).
C79 proved An equation for match texts, exceptions included, and equivalences for rules and groups. C79_unfinished_refuted, C79_instruction_refuted, C79_wants_refuted, C79_group_refuted: the conditions are needed.
C80 proved Equations, exceptions and endless loops included. C80_id_refuted, C80_header_refuted, C80_set_refuted, C80_bucket_refuted: the conditions are needed.
C81 proved Equivalences for texts, equations for messages. C81_newline_refuted: a newline at the end is not ignored; C81_match_refuted: a match longer than its entry.
C82 proved Refusals for every misspelt name; C82_bundle_refuted, C82_bundle_load_refuted, C82_output_refuted: the exact bytes where it is accepted.
C83 proved Rules and groups exactly, with the exception; instructions with one number refused; actions with one number refused, with the exception in brackets and behind "="; C83_overwritten_refuted: what is overwritten is not checked.
