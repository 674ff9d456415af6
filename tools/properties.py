#!/usr/bin/env python3
"""Source of /verif/properties.jsonl (run: python3 tools/properties.py > properties.jsonl)."""
import json
P = []
def p(id, title, statement, quantifier, why, anchors):
    P.append(dict(id=id, title=title, statement=statement, quantifier=quantifier,
                  why_tests_cant=why, anchors=anchors))
U='ofpstr/util.py'; O='ofpstr/oxm.py'; N='ofpstr/nx.py'; F='ofpstr/ofp4.py'; C='ofpstr/cli.py'

p('C01','Tokenising loses nothing and always advances',
  'get_token(u) splits u into (separator, token, rest) whose concatenation is exactly u, and on a non-empty u the separator and the token are not both empty, so every parser loop built on it consumes input.',
  'every text u (any code points, any length)',
  'Losing or duplicating one character depends on the exact mix of separators, "=" signs, brackets and Unicode blanks; the space of texts is infinite.',
  [U+':get_token'])
p('C02','A token ends exactly at the first separator outside brackets',
  'The token returned by get_token is a sequence of plain characters and properly nested bracket groups with no comma, blank or "=" outside a group, and it is maximal: it is followed by the end of the text or by a comma, blank or "=". Only an unclosed bracket lets a token run to the end of the text. This is exactly the bracket grammar: both directions hold.',
  'every text; every nesting of (), [], {}, <>',
  'Nesting depth and mixing of bracket kinds are unbounded.',
  [U+':get_token',U+':scan_paren',U+':is_delimiter',U+':pars'])
p('C03','Bracketed arguments are atomic',
  'A token made of plain characters and closed bracket groups is returned whole by get_token, whatever commas, blanks or "=" signs the groups contain and whatever follows the token after a separator.',
  'every token of the bracket grammar, every continuation',
  'Arguments such as learn(a=b,reg_load(c=d)) nest arbitrarily.',
  [U+':get_token',U+':scan_paren'])
p('C04','Function-call syntax is decomposed correctly',
  'parse_func("name" + "(" + args + ")") returns (name, args) for every bracket kind and every balanced args; text without brackets returns (text, None); text after the closing bracket is rejected with AssertionError, never silently dropped; an unclosed group yields everything after the bracket.',
  'every name without brackets, every args of the bracket grammar, every text',
  'args is arbitrary nested text.',
  [U+':parse_func'])
p('C05','Printed integers read back as the same integer',
  'For every integer n, the decimal form, the hexadecimal form and the zero-padded hexadecimal forms that the library prints are read back by parseInt as n, consuming the whole numeral and nothing of what follows it.',
  'every integer (no bound), every padding width, every following text that does not extend the numeral',
  'Integers are unbounded; the interplay with the octal rule (leading 0) and following characters is a corner-case space.',
  [U+':parseInt',O+':uint_bin2str'])
p('C06','parseInt accepts exactly the numeric literals',
  'parseInt(u) returns (v, l) only if the first l>=1 characters of u form a decimal, negative decimal, 0x hexadecimal or leading-zero octal literal of value v that cannot be extended by another digit of its base; otherwise it raises ValueError. It never loops and never raises anything else.',
  'every text',
  'All prefixes and all digit strings.',
  [U+':parseInt',U+':longest'])
p('C07','Text parsers terminate on every input',
  'str2oxm, str2oxmid, str2act, str2mod, str2group, text2mpflow, text2mpgroupdesc and text2mpgroup return or raise on every text: no text makes them loop for ever.',
  'every text, every command, type and transaction id',
  'Non-termination cannot be observed by a finite test, and the loops advance by computed lengths.',
  [O+':str2oxm',O+':str2oxmid',F+':str2act',F+':str2mod',F+':str2group',F+':text2mpflow',F+':text2mpgroupdesc',F+':text2mpgroup',N+':action_learn_str2act'])
p('C08','Integer match fields round-trip',
  'For every registered big-endian integer field other than nxm_reg0..nxm_reg7 (printed without value) and nxm_ip_frag (printed as nxm_icmp_type), and every value of its width (and, where the field prints masks, every mask): oxm2str of the TLV gives name=value[/mask] in the documented notation, and str2oxm of that text gives back exactly the TLV bytes and consumes the whole text. A mask on a field whose notation has none is not shown.',
  'every integer field of the registry, all 2^8..2^64 values and masks',
  '2^128 value/mask pairs per field.',
  [O+':uint_bin2str',O+':uint_str2bin',O+':header',O+':_bin2str',O+':_str2bin'])
p('C09','Port match fields round-trip, reserved ports by name',
  'in_port, in_phy_port, actset_output (32 bit) and nxm_in_port (16 bit): every port number prints as its reserved name or decimal number and reads back to the same bytes; reserved names are accepted in lower and upper case.',
  'all 2^32 (2^16) port numbers',
  'The reserved ranges differ between 16 and 32 bits and the names are matched by prefix.',
  [O+':port_bin2str',O+':port_str2bin',U+':ofpp'])
p('C10','MAC match fields round-trip',
  'For every MAC field, every address and every mask: the TLV prints as name=aa:bb:cc:dd:ee:ff[/mask] and that text encodes to exactly the TLV.',
  'all 2^48 addresses and 2^48 masks, every MAC field',
  '2^96 combinations.',
  [O+':mac_bin2str',O+':mac_str2bin'])
p('C11','IPv4 match fields round-trip',
  'For every IPv4 field, every address and every dotted mask: the TLV prints as name=a.b.c.d[/m.m.m.m] and that text encodes to exactly the TLV.',
  'all 2^32 addresses and 2^32 masks, every IPv4 field',
  '2^64 combinations.',
  [O+':ipv4_bin2str',O+':ipv4_str2bin'])
p('C12','IPv6 match fields round-trip',
  'For every IPv6 field, every address and every mask written as an address: the TLV prints as name=addr[/mask] in the platform notation (with :: compression and embedded dotted quads) and that text encodes to exactly the TLV.',
  'all 2^128 addresses and masks, every IPv6 field',
  'Zero-run compression makes 256 text shapes over 2^128 values.',
  [O+':ipv6_bin2str',O+':ipv6_str2bin'])
p('C13','packet_type, signed-byte, little-endian and rate/channel fields round-trip',
  'packet_type, the radiotap signed-byte fields, the unmasked little-endian radiotap fields, radiotap_rate, radiotap_channel (with and without mask), radiotap_mcs, radiotap_ampdu_status and radiotap_vht with at least one non-zero MCS byte print to a text that encodes back to exactly the same TLV.',
  'every payload of the right width (and every mask for channel, mcs, ampdu_status)',
  'Components that are zero are printed as empty strings; 2^32..2^96 payloads.',
  [O+':pkt_bin2str',O+':s8_bin2str',O+':le_bin2str',O+':rate_bin2str',O+':ch_bin2str',O+':comp_bin2str',O+':vht_bin2str'])
p('C14','Hex-string fields round-trip',
  'For every hex field (tun_metadata0..63, dot11_frame_ctrl, ...), every non-empty payload and every mask of the same length that fit in a TLV: the TLV prints as name=hex[/hex] and that text encodes to exactly the TLV.',
  'every payload length 1..251 (or 1..125 masked) and content',
  'Variable-length payloads: 256^251 values.',
  [O+':hex_bin2str',O+':hex_str2bin'])
p('C15','SSID field round-trips for plain names',
  'Every SSID of 1..32 bytes made of printable ASCII without blank, "=", ",", "/" or brackets (and not the single "."), with or without a mask at least as long, prints as dot11_ssid=NAME[/mask] and encodes back to exactly the same TLV.',
  'every such SSID and mask',
  'Quoted-printable escaping and the token syntax interact on every character.',
  [O+':ssid_bin2str',O+':ssid_str2bin'])
p('C16','Match lists compose',
  'Printing a concatenation of TLVs yields the comma-join of the printed TLVs, and parsing a comma- or blank-separated list yields the concatenation of the TLVs in the same order, for lists of any length drawn from all round-tripping fields.',
  'every list of TLVs (any length, any order, repetitions)',
  'Unbounded list length; a token could swallow its neighbour.',
  [O+':oxm2str',O+':str2oxm'])
p('C17','Encoded match lists are well framed for every accepted text',
  'Whatever text str2oxm accepts, the result is a sequence of TLVs with a registered class and field, the HM bit set iff a mask is present, and a length byte equal to the number of bytes that follow, clipped at 255.',
  'every text accepted by str2oxm',
  'Framing errors desynchronise the switch; every accepted text matters, not just the printed ones.',
  [O+':str2oxm',O+':header'])
p('C18','Field names and wire identities correspond one to one',
  'The parser maps every documented field name to the class and number that OpenFlow 1.3 / Nicira / Stratosphere assign, no two names share an identity, and the printer maps the identity back to the same name (except nxm_ip_frag, which prints as nxm_icmp_type).',
  'every registered field name and every (class, number) pair',
  'A table of 200 entries kept by hand; a swap in both directions passes any round-trip test.',
  [O+':_bin2str',O+':_str2bin',O+':str2oxmid',O+':oxmid2str'])
p('C19','Out-of-range integers are truncated, not rejected',
  'For an integer field of n bytes, str2oxm("name=V") encodes V modulo 2^(8n) for every integer literal V, including negative ones; the TLV length is always right.',
  'every integer literal, every integer field',
  'Unbounded literals.',
  [O+':uint_str2bin'])
p('C20','MAC notations are equivalent',
  'The notations aabbccddeeff, aabb.ccdd.eeff, aa:bb:cc:dd:ee:ff and aa-bb-cc-dd-ee-ff, in either case, encode to the same TLV.',
  'all 2^48 addresses, every MAC field, any letter case',
  'All addresses and case mixes.',
  [O+':mac_str2bin'])
p('C21','Prefix-length masks denote network masks',
  'As the README documents (ipv4_src=192.168.1.0/24), address/n denotes the mask of n leading one bits, for IPv4 and IPv6 fields.',
  'every address and every prefix length',
  'The whole range of prefix lengths; the fallback code path is never reached by the existing tests.',
  [O+':ipv4_str2bin',O+':ipv6_str2bin'])
p('C22','Standard actions round-trip',
  'output (any port, with max_len for the controller), set_queue, group, set_mpls_ttl, set_nw_ttl, push_vlan/push_mpls/push_pbb/pop_mpls (any ethertype) and the argument-less actions: the text printed for the action bytes encodes to exactly these bytes.',
  'every parameter value of every standard action',
  '2^32 ports times 2^16 lengths etc.',
  [F+':action_output_str2act',F+':action_uint_str2act',F+':action_push_str2act',F+':action_generic_str2act',F+':str2act',F+':act2str'])
p('C23','set_field actions round-trip and are padded',
  'set_NAME=VALUE encodes to an OFPAT_SET_FIELD action that contains exactly the TLV of NAME=VALUE followed by zero padding to a multiple of 8, and act2str prints it back as set_NAME=VALUE, for every round-tripping match field.',
  'every field and every value',
  'All TLVs; padding depends on the TLV length modulo 8.',
  [F+':str2act',F+':act2str'])
p('C24','Nicira actions round-trip',
  'resubmit, resubmit_table, set_tunnel (32 bit), set_tunnel64 (above 32 bit), cnt_ids, reg_load (contiguous bit range), reg_load2, reg_move, multipath, bundle, output_reg/output_reg2 (from bit 0, max_len 0xffff), pop_queue and exit (note, bundle_load and learn: C50-C52): the text printed for the action bytes encodes to exactly these bytes, for every parameter value in the printable range.',
  'every parameter value, every id list and slave list',
  'Lists of any length, bit ranges, register pairs.',
  [N+':action_resubmit_str2act',N+':action_set_tunnel_str2act',N+':action_cnt_ids_str2act',N+':action_reg_move_str2act',N+':action_multipath_str2act',N+':action_bundle_str2act',N+':action_reg_load_str2act'])
p('C25','Every accepted action text gives a well-framed action',
  'If str2act accepts a text, it returns nothing (the name is no action, or there is nothing to set) or one action: the length field equals the number of bytes returned, the type is the one of the named action, and the length is a multiple of 8 except for set_nw_ttl and note.',
  'every text accepted by str2act',
  'Arbitrary nested arguments; a wrong length makes the switch misparse the rest of the message.',
  [F+':str2act',N+':_fix_act_len',N+':_pad8'])
p('C26','Function style equals assignment style',
  'For output, set_queue, group, set_mpls_ttl, set_nw_ttl, the push/pop actions, resubmit, resubmit_table with a port only, set_tunnel, set_tunnel64, note and set_FIELD (any name), action(ARG) encodes to the same bytes as action=ARG, for every argument text without separators or brackets, including the rejected ones.',
  'every argument text',
  'README promises it for all arguments.',
  [F+':str2act'])
p('C27','Action lists compose',
  'act2str of a concatenation of printable actions is the comma-join of their texts, and a flow text listing the actions encodes their concatenation in order.',
  'every list of actions',
  'Unbounded lists; an action could swallow its successor.',
  [F+':act2str',F+':str2dict'])
p('C28','Printing binary data terminates exactly when no zero-length entry is reached',
  'oxm2str and oxmid2str return or raise on every byte string. act2str, inst2str and mod2str return or raise on every byte string unless they reach an action or instruction whose length field is 0 and that prints without error, in which case they never return.',
  'every byte string',
  'Non-termination on hostile input cannot be tested exhaustively.',
  [O+':oxm2str',O+':oxmid2str',F+':act2str',F+':inst2str',F+':mod2str'])
p('C29','Every accepted flow text gives a well-framed OFPT_FLOW_MOD',
  'If str2mod(text, command, xid) returns, the message has version 4, type 14, a length field equal to its size, the given xid and command, match type 1, a match length that covers exactly the TLVs, zero padding to 8 bytes, and instruction blocks whose lengths cover the rest of the message exactly.',
  'every text, command and xid',
  'All texts; framing must hold for each.',
  [F+':str2mod',F+':str2dict'])
p('C30','Flow text encodes to the specified message',
  'For every abstract flow (fixed fields, match TLVs, instructions with action lists) the documented text of the flow is encoded by str2mod to exactly the OpenFlow 1.3 wire message of that flow, for ADD/MODIFY and DELETE commands.',
  'every abstract flow: any number of matches, instructions and actions, every field value',
  'The product of all fields, lists and values.',
  [F+':str2mod',F+':str2dict'])
p('C31','Flow message prints as the specified text',
  'For every abstract flow whose match fields and actions are printable (the exceptions are those named in C08, C22-C24 and C50-C53), mod2str of its wire message is its documented text, fixed fields that have their default value being omitted.',
  'every abstract flow, every command',
  'As above.',
  [F+':mod2str',F+':_fixed',F+':inst2str'])
p('C32','Flow rules survive a text round trip',
  'str2mod(mod2str(m), **mod2extra(m)) == m for the wire message m of every printable abstract flow whose flags are the five named ones, and mod2str(str2mod(t)) == t for its canonical text t; every other spelling prints as the canonical text. Flag bits without a name are lost.',
  'every abstract flow, command and xid',
  'As above; the two directions could be wrong in matching ways, so C30/C31 fix each against the specification.',
  [F+':str2mod',F+':mod2str',F+':mod2extra'])
p('C33','Defaults of omitted fields',
  'A flow text that does not mention table, priority, cookie, buffer, out_port, out_group, timeouts or flags encodes them with the documented default of the command: DELETE commands get table ALL, buffer 0, out_port/out_group ANY; the others table 0, NO_BUFFER, out_port/out_group 0; priority 0x8000.',
  'every flow text not naming the field, every command',
  'All texts and commands.',
  [F+':ofpfc_default',F+':ofpfc_del_default',F+':str2mod'])
p('C34','Instruction aliases are interchangeable',
  '@goto/@goto_table, @metadata/@write_metadata, @apply/@apply_actions, @write/@write_actions and @clear/@clear_actions denote the same instruction: replacing one by the other, at any point of a flow text where an instruction may stand and whatever follows, does not change the result of str2mod (message or exception).',
  'every rest of the flow text, before and after',
  'Every context.',
  [F+':str2dict'])
p('C35','Unknown names are rejected',
  'A flow text containing, at a point where a match field, an action or an instruction is expected, a name that is not one of the documented ones makes str2mod raise an exception. Every accepted text is a sequence of parts with known names, the only exception being a stray "=" where an action is expected, which means nothing.',
  'every unknown name, every surrounding text',
  'All names.',
  [F+':str2dict',O+':str2oxm',F+':str2act'])
p('C36','Separators are interchangeable',
  'Commas and blanks in any number and mix may precede and separate the parts of a flow text (none may follow the last one), and blanks around "=" are ignored: all such spellings of an abstract flow encode to the same message.',
  'every abstract flow and every choice of separators',
  'All separator strings.',
  [U+':get_token',F+':str2dict'])
p('C37','Fixed fields: order does not matter, last assignment wins',
  'Permuting the fixed-field settings of different names in a flow text does not change the message; of several settings of the same field the last one counts (a cookie without mask leaves the mask of an earlier one); flags accumulate.',
  'every list of settings and every permutation',
  'n! orders.',
  [F+':str2dict'])
p('C38','Group rules round-trip',
  'For every abstract group (id, type, buckets with weight, watch_port, watch_group and actions; every bucket with something to print) str2group of the documented text, in any spelling, is the OFPT_GROUP_MOD wire message; and group2str of the message is the text if moreover the last bucket has an action. Buckets with nothing to print, and a last bucket without actions, are lost.',
  'every abstract group, any number of buckets and actions, every command and xid',
  'Unbounded structure.',
  [F+':str2group',F+':group2str',F+':str2bucket',F+':bucket2str'])
p('C39','Every accepted group text gives a well-framed message',
  'If str2group(text, command, xid) returns, the message has version 4, type 15, a length equal to its size, the given xid and command, and its body is a sequence of buckets whose length fields cover it exactly.',
  'every text, command, xid',
  'All texts.',
  [F+':str2group',F+':str2bucket'])
p('C40','group2str shows every bucket',
  'The text printed for a group message mentions as many buckets as the message contains.',
  'every group message',
  'The boundary case (a last bucket without actions) is one of infinitely many messages.',
  [F+':group2str'])
p('C41','Flow statistics replies round-trip',
  'For every nonempty list of flow statistics entries (counters, fixed fields, match, instructions) whose OFPMP_FLOW reply fits in 65535 bytes, text2mpflow of the lines, in any spelling, is the reply, and mpflow2text of the reply, in one message or several, is the canonical lines; reading these back gives the same entries, except that priority 0x8000, which is not printed, is read as 0. Not covered by this: the empty reply (its text reads as one entry), flags without a name, replies over 65535 bytes (NameError) and the printing of requests (TypeError).',
  'every list of entries',
  'Unbounded lists and values.',
  [F+':text2mpflow',F+':mpflow2text'])
p('C42','Group description replies round-trip',
  'For every nonempty list of group descriptions whose OFPMP_GROUP_DESC reply fits in 65535 bytes, text2mpgroupdesc of the lines, in any spelling, is the reply, and mpgroupdesc2text of the reply, in one message or several, is the canonical lines, so that both round trips are the identity when every bucket says something (has an action, or a weight or watch value that is printed). Not covered by this: empty buckets (one before another bucket is lost), the empty reply and replies over 65535 bytes (NameError).',
  'every list of groups',
  'Unbounded lists.',
  [F+':text2mpgroupdesc',F+':mpgroupdesc2text'])
p('C43','Group statistics replies round-trip',
  'For every nonempty list of group statistics (id, counters, bucket counters) whose OFPMP_GROUP reply fits in 65535 bytes, text2mpgroup of the lines, in any spelling, is the reply, and mpgroup2text of the reply, in one message or several, is the canonical lines; both round trips are the identity for numeric ids when some counter is nonzero or there is a bucket. Not covered by this: the ids OFPG_ALL (ValueError) and OFPG_ANY (read as 0), a line that ends after the id (AssertionError) and replies over 65535 bytes (NameError).',
  'every list of statistics entries',
  'Unbounded lists and 2^64 counters.',
  [F+':text2mpgroup',F+':mpgroup2text'])
p('C44','Multipart messages are well framed',
  'If text2mpflow, text2mpgroupdesc or text2mpgroup returns, the result is one message with version 4, the given type and xid, the right multipart type, flags 0 and a length equal to its size, hence at most 65535 bytes; the body of a reply is one entry per line of the text, each with the standard layout and a length field equal to its size.',
  'every text, type and xid',
  'All texts.',
  [F+':text2mpflow',F+':text2mpgroupdesc',F+':text2mpgroup'])
p('C45','Message parameters are recovered',
  'mod2extra returns exactly the command and xid given to str2mod, and group2extra the command, group id and xid of str2group, in the keyword form that reproduces the message.',
  'every message produced',
  'All commands and xids.',
  [F+':mod2extra',F+':group2extra'])
p('C46','Control messages are reassembled from the stream',
  'The command line tool reads exactly the messages the switch sent, in order, however the network splits the byte stream.',
  'every message sequence and every segmentation of the stream',
  'Segmentations are exponential in the stream length and depend on timing.',
  [C+':msgs'])
p('C47','Switch errors are reported as failures',
  'If the switch answers a flow or group command with an error message for it before the barrier reply, the tool reports failure; if it answers with the barrier reply only, it reports success.',
  'every reply sequence',
  'All reply sequences.',
  [C+':ofctl'])
p('C48','Dump commands show every part of the reply and then stop',
  'If the stream is cut only at message and header ends, dump-flows and dump-groups print every multipart reply of the right type, of any xid, up to and including the first one whose flags field is 0 (OpenFlow 1.3 defines only the MORE flag), ignore all other messages, and stop reading there; without such a reply they wait, or end with struct.error when the connection is closed.',
  'every sequence of replies and unrelated messages',
  'Unbounded sequences.',
  [C+':ofctl',C+':msgs'])
p('C49','The tool sends the requested command and nothing else',
  'ofctl sends a hello with xid 1 and then, for the five flow and three group commands, the flow or group message of the joined arguments with the command code of that name and xid 2, followed by a barrier request with xid 3; for the dump commands, the request for all flows or all group descriptions with xid 2. If the text is rejected, or the command is unknown, only the hello is sent. What is sent does not depend on what the switch sends.',
  'every command, every list of arguments, every stream from the switch',
  'All texts and all streams.',
  [C+':ofctl'])
p('C50','Notes are kept byte for byte',
  'note(TEXT) and note=TEXT of printable ASCII without blank, comma, "=" or brackets encode to a note action with exactly these bytes; act2str prints any note as quoted-printable that stands for the same bytes (line ends excepted); and for 1 to 76 such bytes (other than a single ".") text and bytes round-trip. Outside of that range bytes are lost: everything from the first separator or "=" on is dropped, so is the zero padding OpenFlow asks for, and so are the bytes after the 75th of a longer note.',
  'every byte string, every text behind the first word',
  'All byte strings of all lengths; the limit of 76 comes from the line wrapping of quoted-printable.',
  [N+':action_qp_str2act',N+':action_qp_act2str'])
p('C51','bundle_load round-trips for ranges that start at bit 0',
  'bundle_load(FIELDS,BASIS,ALG,TYPE,DST[0:n],slaves(...)) encodes to the NXAST_BUNDLE_LOAD action with these values and is printed back unchanged. For DST[a:b] with a > 0 the number of bits written is b instead of b-a: the action prints as DST[a:a+b].',
  'every hash, basis, algorithm, port field, destination field, range and slave list',
  'Slave lists of any length times all bit ranges and fields.',
  [N+':action_bundle_load_str2act',N+':action_bundle_load_act2str'])
p('C52','learn round-trips when it only has match and load specifications',
  'learn(...) with any sequence of fixed values (idle_timeout etc.), matches DST=SRC, reg_load(DST=SRC) and outputs encodes to the NXAST_LEARN action with the flow_mod_spec list in order, the last setting of each fixed value counting; with matches and loads only the text and the bytes round-trip. Any non-zero fixed value makes printing raise TypeError, and the text printed for an output specification cannot be read (AssertionError).',
  'every list of specifications, every field, bit range and value',
  'Unbounded lists of specifications, each with bit offsets, sizes and immediate values of any width.',
  [N+':action_learn_str2act',N+':action_learn_act2str'])
p('C53','Only set_nw_ttl and note break the 8-byte alignment, and then printing fails',
  'Every action encoded by the tool is a multiple of 8 bytes long except set_nw_ttl (always 5 bytes) and note. An apply or write instruction whose actions do not add up to a multiple of 8 bytes is encoded, but inst2str of it raises AssertionError, whatever follows.',
  'every action, every instruction, every rest of the message',
  'The sum of the lengths decides; all lists of actions.',
  [F+':inst2str',N+':action_qp_str2act',F+':action_uint_str2act'])
p('C54','Every accepted flow or group text stands for a flow or group in range',
  'Whenever str2mod accepts a text, the message is the wire form of some flow: fixed fields in range, with the default where the text does not name them and exactly the flags it names; known match fields with values of their width; instructions and actions in range. The same for str2group. Nothing is truncated or wrapped silently. Exceptions: eight actions whose arguments are not checked (set_tunnel64 below 2^32, reg_load, note, bundle, bundle_load, output_reg, output_reg2, learn), set_field of an empty SSID, and nxm_ct_label moved as if it had 4 bytes.',
  'every text, every command and xid',
  'All texts, not only well-formed ones: a test can only show texts whose meaning is known beforehand.',
  [F+':str2mod',F+':str2dict',F+':str2act',F+':str2group',N+':action_reg_move_str2act'])
p('C55','Printing an accepted text and reading it again gives the same message',
  'For every match text, flow text and group text that is accepted, whatever its spelling: if the message only has steady match fields (all but hex, SSID and VHT fields, the misprinted ones of C08, and masks where the printer drops them) and printable actions, then the printer returns a text and reading that text gives exactly the same message. So the printed text is a normal form, and flows with the same text are the same message.',
  'every accepted text',
  'All spellings of all texts.',
  [F+':str2mod',F+':mod2str',F+':str2group',F+':group2str',O+':str2oxm',O+':oxm2str'])
p('C56','Switch addresses are read as documented and nothing is sent without one',
  'tcp:a.b.c.d:port and unix:path are understood as that host and port or that path. A text is refused (Eparam, nothing sent) exactly when it is neither tcp: followed by four digit strings with one character between each two, a colon and a digit, nor begins with unix:. In an accepted tcp address the separators may be any characters and whatever follows the port is ignored. Otherwise the command runs on the connection to that address; when the connection fails nothing is sent.',
  'every text given as address, every network',
  'All texts; the regular expression backtracks.',
  [C+':ofctl'])
p('C57','Match texts follow one grammar and the bytes are what it says',
  'str2oxm accepts a text exactly when it is a list of name=value items in the grammar written down in SpecText (numbers, port names, four MAC notations, inet(3) IPv4 notations, RFC 4291 IPv6 notations, hex, quoted-printable SSIDs, channel, composite and VHT forms, each with its masks); the bytes are the fields and values the grammar gives it, the grammar is unambiguous, and any other text raises an exception. A decimal fraction in radiotap_rate gives the byte that IEEE binary64 arithmetic, rounding in every step, gives. Text is left unread only behind an empty value of a hex field or an SSID, which silently drops the rest. Characters are ignored only behind a number in radiotap_vht and in a third part of an SSID.',
  'every text',
  'All texts, including malformed ones: a test cannot show that nothing else is accepted.',
  [O+':str2oxm',O+':ipv4_str2bin',O+':ipv6_str2bin',O+':mac_str2bin',O+':ssid_str2bin',O+':vht_str2bin'])
p('C58','Printing any match bytes shows every entry, or raises',
  'For every byte string, well formed or not: oxm2str succeeds exactly when the bytes are a sequence of entries that can be shown (a known field with a payload its type allows, "?" for an unknown class or experimenter), ignoring fewer than four bytes at the end, and the text is the comma-join of one item per entry, in order, with the value the bytes of the entry have; SSIDs are shown in quoted-printable that stands for the same bytes, line ends excepted. Otherwise it raises. Nothing compares the length of an integer with its field, so a cut-off value is shown as if it were complete; the registers are shown without value.',
  'every byte string',
  'All byte strings: the behaviour on malformed and cut-off data has no end of cases.',
  [O+':oxm2str',O+':uint_bin2str',O+':ssid_bin2str',O+':comp_bin2str',O+':vht_bin2str'])
p('C59','Printing any bytes as actions shows every action, or raises, or never ends',
  'For every byte string, well formed or not: act2str returns a text exactly when the bytes are a sequence of actions that can be shown, ignoring up to four bytes at the end; the text is the comma-join of one item per action, in order, with the name that belongs to its type or subtype and the values its payload has at the offsets of that action ("?" for an unknown type, vendor or subtype; learn with a spec whose destination is 3 repeats the spec before it; learn with a nonzero fixed field raises; subtype 25 counts as set_field). It never ends exactly when such a sequence runs into an action that can be shown and whose length is 0. In all other cases it raises. The field of set_field is read without regard to the length of the action.',
  'every byte string',
  'All byte strings: every combination of lengths, types and cut-off payloads.',
  [F+':act2str',N+':action_learn_act2str',N+':action_reg_load_act2str',N+':action_bundle_act2str',N+':action_multipath_act2str'])
p('C60','Printing any bytes as instructions or as a flow rule shows all of it, or raises, or never ends',
  'For every byte string, well formed or not: inst2str returns a text exactly when the bytes are a sequence of instructions that can be shown (goto, metadata, clear and meter of their exact length; write and apply of a length divisible by 8 whose actions can be shown; "?" for an unknown type), ignoring up to four bytes at the end, and the text is the comma-join of what they show, in order. mod2str returns a text exactly when there are 52 bytes, the match type is 1 and both the match and the instructions can be shown; the text is the fixed fields that differ from the defaults of the command, then the match, then the instructions, each value taken from its offset in the message. Both never end exactly when such a sequence runs into an entry of length 0 or into actions that never end. In all other cases they raise. The match is cut at its own length, not at the length of the message, so it can be read from bytes behind the message.',
  'every byte string',
  'All byte strings: every combination of types, lengths and cut-off fields, on three nested levels.',
  [F+':inst2str',F+':mod2str',F+':_fixed'])
p('C61','Printing any bytes as a group or as multipart messages shows all of it, or raises, or never ends',
  'For every byte string, well formed or not, group2str, mpflow2text and mpgroupdesc2text return the text that the specification gives for it (group number and type, one @bucket item per bucket with weight, watch fields and actions; one line per row with counters and rule; one line per group description; messages one after the other, each as long as its header says), exactly when every message, row, bucket, rule and action in it can be shown; they never end exactly when such a sequence runs into a row, bucket, instruction or action of length 0; otherwise they raise. A group loses what is left when fewer than 17 bytes remain, a row list what is left below 56, 40 or 8 bytes. mpgroup2text returns exactly the text of the specification and always ends.',
  'every byte string',
  'All byte strings: every combination of lengths on up to five nested levels.',
  [F+':group2str',F+':bucket2str',F+':mpflow2text_one',F+':mpgroupdesc2text_one',F+':mpgroup2text_one'])
p('C62','Action texts follow one grammar, and mean what it says',
  'str2act accepts a text exactly when it is in the grammar of SpecActText, which gives, without reference to the reader, the bytes and the rest for each of the 32 named actions, set_FIELD and texts without an action: tokens and brackets, numbers, ports, bit ranges, slaves, register loads, and the entries of learn. Everything else raises. The grammar is unambiguous, its rest is the end of the text, and it covers what a user would write (C22-C24). It takes more than that: junk behind numbers, missing "=" signs, and a bundle without a slave type.',
  'every text',
  'All texts: any nesting of brackets, any blanks, any number of entries; and that nothing outside the grammar is accepted cannot be tested.',
  [F+':str2act',N+':action_learn_str2act',N+':action_bundle_str2act',N+':get_bits',U+':get_token',U+':parse_func'])
p('C63','Flow rules follow one grammar, and mean what it says',
  'str2mod accepts a text exactly when it is in the grammar of SpecFlowText and its numbers fit the message: settings, flags and match fields first, then instructions, with actions only behind the instructions that take them; the message is the header, the settings in order over the defaults, the match fields in order and the instructions in order, each with the actions written behind it. Everything else raises. The grammar is unambiguous and covers what a user would write (C30). It takes more than that: junk behind a cookie mask, and a stray "=" between actions. Metadata without a mask is written under the mask 0.',
  'every text, command and transaction number',
  'All texts: any number of parts in any order; and that nothing outside the grammar is accepted cannot be tested.',
  [F+':str2mod',F+':str2dict',F+':str2act',O+':str2oxm',U+':get_token'])
p('C64','Group texts follow one grammar, and mean what it says',
  'str2group accepts a text exactly when it is in the grammar of SpecFlowText and its numbers fit the message: group numbers and types (the last of each counts), then buckets of fields and actions separated by the word @bucket; the message is the header with number and type, then the buckets in order, each with its fields over the defaults of the group type and its actions in order. Everything else raises. The grammar is unambiguous and covers what a user would write (C38). It takes more than that: separators alone make a bucket, the word @bucket alone does not, and the "=" of group may be missing.',
  'every text, command and transaction number',
  'All texts: any number of buckets and items; and that nothing outside the grammar is accepted cannot be tested.',
  [F+':str2group',F+':str2bucket',F+':str2act',U+':get_token'])
p('C65','Flow statistics texts follow one grammar, and mean what it says',
  'text2mpflow accepts a text exactly when every line is in the grammar of SpecMpText and its numbers fit the message: counters first, then the parts of a flow rule as in C63; the message, reply or request, is the header and one entry per line, in order. Everything else raises, also a text whose entries do not fit one message. The grammar is unambiguous and covers what a user would write (C41). A reply drops ports, groups, buffers and masks of cookies, and a request drops counters and everything after the match, whatever their values.',
  'every text, message type and transaction number',
  'All texts: any number of lines and of parts per line; and that nothing outside the grammar is accepted cannot be tested.',
  [F+':text2mpflow',F+':str2dict',F+':_fixed',U+':get_token'])
p('C66','Group description texts follow one grammar, and mean what it says',
  'text2mpgroupdesc accepts a text exactly when every line is in the grammar of SpecMpText and its numbers fit the message: group numbers and types in any letter case (the last of each counts), then buckets behind the word @bucket; a reply is the header and one entry per line with its buckets in order, a request is the bare header, whatever the text. Everything else raises, also a text whose entries do not fit one message. The grammar is unambiguous and covers what a user would write. It takes more than that: another word that starts with "@" silently ends the line.',
  'every text, message type and transaction number',
  'All texts: any number of lines, buckets and items; and that nothing outside the grammar is accepted cannot be tested.',
  [F+':text2mpgroupdesc',F+':str2bucket',F+':str2act',U+':get_token'])
p('C67','Group counter texts follow one grammar, and mean what it says',
  'text2mpgroup accepts a text exactly when every line that counts is in the grammar of SpecMpText and its numbers fit the message: group numbers (the last counts), then counters, then counters of buckets behind the word @bucket; a reply is the header and one entry per line with the counters of its buckets in order, a request is the header and the group number of the first line. Everything else raises, also a text whose entries do not fit one message. The grammar is unambiguous and covers what a user would write. It takes more than that: the first NAME=VALUE with an unknown name silently ends the line, whatever follows.',
  'every text, message type and transaction number',
  'All texts: any number of lines, counters and buckets; and that nothing outside the grammar is accepted cannot be tested.',
  [F+':text2mpgroup',U+':get_token'])
p('C68','Decimal fractions in radiotap_rate are exact as long as they are short',
  'The text radiotap_rate=N.FM with at most 13 digits behind the point is read as floor(2*N.F), and N.FK with at most 10 as floor(N.F/500), taken on the exact decimal value; a value above 255 raises. So the floating point arithmetic in between (parseFloat and the scaling) never shows. With more digits it does: 499.99999999999999K is read as 1 unit of 500K rather than 0, and 127.999999999999999M is refused although 255 units fit.',
  'all digit strings N and all digit strings F of the lengths given',
  'More than 10^13 fractions for every whole number; only an argument about rounding covers them.',
  [U+':parseFloat',O+':rate_str2bin'])
p('C69','Accepted multipart texts stand for entries in range',
  'For every text that text2mpflow or text2mpgroupdesc accepts as a reply: either the message contains one of the irregular actions of C54, or it is the wire form of a list of entries, one for each line, whose counters, fixed fields, flags, match fields, instructions and buckets are all known to the standard and in range (with the exception of actions that move nxm_ct_label). Fields of the text that a reply has no room for (buffer, output port and group, mask of the cookie) leave no trace. (For group counters see C44.)',
  'every text and transaction number',
  'All texts with any number of lines.',
  [F+':text2mpflow',F+':text2mpgroupdesc',F+':str2dict',F+':str2bucket',F+':str2act'])
p('C70','Printing an accepted multipart text and reading it again gives the same message',
  'For every reply text that is accepted: if its entries only have steady match fields, printable actions and buckets that say something, then the printer returns a text, and reading it gives exactly the same message; for flow statistics the priority 0x8000 becomes 0 (the printer leaves it out and the reader takes 0), and after that one change further rounds change nothing. For group counters the printer always returns, and the text is read back as the same message unless a group has no counters or one of the two reserved ids.',
  'every accepted text',
  'All spellings of all texts.',
  [F+':text2mpflow',F+':mpflow2text',F+':text2mpgroupdesc',F+':mpgroupdesc2text',F+':text2mpgroup',F+':mpgroup2text'])
p('C71','Printing a message that the tool built itself always ends',
  'For every text that str2act, str2mod, str2group, text2mpflow, text2mpgroupdesc or text2mpgroup accepts, the printer for that kind returns a text or raises on the bytes returned: its loops do not run forever, as they do on foreign bytes with entries of length 0 (C59-C61). Ending is not succeeding: some of these messages are refused by the printer.',
  'every accepted text, every command or message type, every transaction number',
  'All texts, with any number of actions, instructions, buckets and lines; and a test cannot observe that a loop never ends.',
  [F+':act2str',F+':inst2str',F+':mod2str',F+':group2str',F+':mpflow2text',F+':mpgroupdesc2text',F+':mpgroup2text'])
p('C72','A text is refused with one of a known set of exceptions',
  'str2oxm, str2act, str2mod and str2group raise AssertionError, ValueError, KeyError, IndexError, TypeError, struct.error, OSError or OverflowError on some text each, and no other exception on any text; text2mpflow and text2mpgroupdesc raise each of these and NameError; text2mpgroup raises AssertionError, ValueError, struct.error and NameError and nothing else. So a caller that expects ValueError for bad texts misses most refusals.',
  'every text, every command or message type, every transaction number',
  'Tests can show that an exception occurs, not that no text raises another one.',
  [O+':str2oxm',F+':str2act',F+':str2mod',F+':str2group',F+':text2mpflow',F+':text2mpgroupdesc',F+':text2mpgroup'])
p('C73','Bytes are refused by the printers with one of a known set of exceptions',
  'oxm2str raises AssertionError, ValueError, KeyError, IndexError, struct.error or OSError on some bytes each and nothing else on any bytes; act2str, inst2str, mod2str, group2str, mpflow2text and mpgroupdesc2text raise each of these, TypeError and NameError and nothing else; oxmid2str only KeyError and struct.error; mpgroup2text only AssertionError and struct.error.',
  'all byte strings',
  'All byte strings; tests cannot show that no bytes raise another exception.',
  [O+':oxm2str',O+':oxmid2str',F+':act2str',F+':inst2str',F+':mod2str',F+':group2str',F+':mpflow2text',F+':mpgroupdesc2text',F+':mpgroup2text',N+':action_learn_act2str'])
p('C74','A dump can be loaded again',
  'The rule in a line printed by mpflow2text, given to str2mod, is the flow modification with the match, instructions, cookie, priority, timeouts and flags of the dumped entry, with no buffer and no output filters; its table is the dumped one for all commands that do not delete, and for the deleting commands unless it is table 0, which the dump leaves out and a deletion reads as all tables. A line with counters that are not zero is refused with KeyError as a whole; the rule is what follows the blank after the counters. A line printed by mpgroupdesc2text, given to str2group, is the dumped group, also for reserved ids, if each bucket says something.',
  'all replies whose entries are in range, printable and have flags with names; all commands and transaction numbers',
  'Relates printers and readers of different messages with different default values, for all entries.',
  [F+':mpflow2text_one',F+':mpgroupdesc2text_one',F+':str2mod',F+':str2group',F+':_fixed'])
p('C75','A message determines what it stands for',
  'Two flow modifications in range with the same bytes have the same command, transaction number, fixed fields, match fields in the same order, and instructions with the same actions in the same order; the same holds for group modifications and for flow stats, group description and group stats replies. Hence two written flow or group texts give the same message exactly when they spell the same rule. learn actions are the same if the values that count and their flow specs are. Match fields must have at most 255 bytes: with a longer one, different matches can give the same bytes.',
  'all messages in range with known match fields that their length field can count; all written texts of C30 and C38',
  'A statement about all pairs of messages; tests compare chosen pairs.',
  [F+':str2mod',F+':str2group',F+':str2act',N+':str2act'])
p('C76','The printed text is fixed for every byte string',
  'For all bytes, and for names and notes with any bytes in them, the printers of match fields, actions, instructions, flow and group modifications and multipart replies return a text t exactly when t is the text of the specification, in which quoted-printable is given to the last character: which bytes are escaped, where soft line breaks go (76 columns), how line ends are written, and the special cases of a blank at the end of a line and of a dot alone. Names of at most 25 bytes without line ends and without a leading dot are written byte by byte.',
  'all byte strings of any length',
  'Line breaks depend on the column, on what follows and on the first line end of the whole text; names are of any length.',
  [O+':ssid_bin2str',O+':oxm2str',N+':act2str',F+':act2str',F+':inst2str',F+':mod2str',F+':group2str',F+':mpflow2text',F+':mpgroupdesc2text'])
p('C77','The exception an unknown name leads to',
  'After any entries, a flow entry whose name is not known raises KeyError if "=" follows (blanks before it allowed) and AssertionError otherwise; the same holds for a field in a match text and for a set_ action whose field is not known. With brackets such a set_ action raises KeyError if there is something in them, AssertionError if text follows the closing bracket, and empty brackets change nothing. An unknown instruction raises ValueError. An unknown action raises ValueError, alone or with brackets, and AssertionError if text follows its closing bracket.',
  'all names, all written beginnings, all texts that follow',
  'C35 says that unknown names are refused; this fixes the exception for all names and all contexts.',
  [O+':str2oxm',F+':str2dict',F+':str2act',U+':parse_func'])
p('C78','Lists of field names are read and shown exactly',
  'For every text: str2oxmid returns the headers of the fields that the words of the text name, in order, each with the mask flag asked for (where the field can have a mask) and the length of its value; words that name no field, also "=" and values, count for nothing, and no text is refused. For every byte string: oxmid2str returns the names that belong to the headers, four bytes each and eight for experimenters, "?" for an unknown class or experimenter, whatever the length byte says; it raises for an unknown field of a known class and for an experimenter header that is cut off. Reading a text and printing the result gives the names in it separated by commas.',
  'all texts, all byte strings',
  'A statement about all texts and all bytes, well formed or not; misspelt names vanish silently, which a test of known names does not show.',
  [O+':str2oxmid',O+':oxmid2str'])
p('C79','What is written behind an accepted text is read as if it stood alone',
  'If a text ends with a character of a token, in no open bracket, and str2oxm reads it as the bytes b, then whatever is written behind it, beginning with a separator, is read as it would be alone: the result is b followed by its bytes, or its exception. Two match texts with a comma between them give the bytes of both. For flow rules, with fields, instructions and actions: behind a finished text str2mod accepts exactly what can be read from the place the text ends at (fields, instructions or actions), and the message is the one of the parts of both, as long as the values fit. Behind a text of fields and flags this is what is a rule by itself. Behind a finished group text, the word "@bucket" and any buckets are accepted if they are in the grammar of buckets and fit, and the message holds the buckets of both under the id and type of the first. Not so for texts that end with "=" or inside a bracket, which take what follows as their value or stop; nor for an action output_reg=SOURCE, which takes what follows for its maximum length, and "set_", which is accepted alone. No field can follow an instruction, and no group type a bucket.',
  'all texts and all continuations',
  'A statement about all pairs of texts; that no value, gap or bracket of the first reaches into the second needs an argument about all of them.',
  [O+':str2oxm',F+':str2dict',F+':str2mod',F+':str2group',U+':get_token'])
p('C80','Entries printed one behind the other are printed as they would be alone',
  'If a byte string is made of whole match fields (each with the bytes its length says, and an experimenter field with room for its id), then oxm2str of it followed by any further bytes, at least 4, is the text of the one, a comma, and the text of the other; an exception of either is the exception of both, the first one first. The same for act2str and whole actions (longer than a header, with room for a Nicira subtype, and for the match field in a set_ action) and for inst2str and whole instructions, when more than 4 bytes follow, endless loops included. Fewer bytes leave no trace in the text. group2str shows whole buckets (longer than a bucket header) and then, for any further bytes, what it shows for these behind the header. The conditions are needed: a field without room for its id takes it from the next, a header of 4 bytes and a bucket without actions are shown only if something follows, and a set_ action reads beyond its end.',
  'all byte strings made of whole entries, all byte strings behind them',
  'A statement about all pairs of byte strings, most of which no encoder produces; that the text of an entry depends on the bytes of the entry only needs an argument about every kind of entry.',
  [O+':oxm2str',F+':act2str',F+':inst2str',F+':group2str'])
p('C81','Dumps are read line by line and shown entry by entry',
  'Reading two texts with a newline between them (text2mpflow, and for replies text2mpgroupdesc and text2mpgroup) is accepted if and only if each is accepted alone and the entries of both fit in one message; the message then holds the entries of the one and then of the other. Showing a reply whose entries are whole (each with the bytes its length says, and in a flow entry a match no longer than it) followed by any further bytes, enough for an entry, gives the text of the one, a newline, and the text of the other; an exception or an endless loop of either is the one of both. Fewer bytes are ignored. Replies one behind the other are shown one below the other, whatever their entries are, and a reply without entries leaves no line. A newline at the end of a text is one more entry, and a match longer than its entry is shown with bytes of the next.',
  'all texts, all byte strings of whole entries and all bytes behind them, all xids and flags',
  'A statement about all pairs of texts and byte strings, with exceptions and endless loops on either side.',
  [F+':text2mpflow',F+':text2mpgroupdesc',F+':text2mpgroup',F+':mpflow2text',F+':mpgroupdesc2text',F+':mpgroup2text'])
p('C82','A misspelt field name in an action is refused, or vanishes',
  'An action with a field name that is not known among its arguments is refused in reg_move (either side, with or without bits), multipath (destination), reg_load, reg_load2, output_reg and output_reg2 (without bits) and learn (the destination of every entry except in output(...), and every source that is not a number), whatever surrounds it. It is accepted in bundle (slave type), bundle_load (slave type, and destination with bits) and output_reg with bits: the action then has no field header in its place and everything behind it moves up by its four bytes.',
  'all names, all arguments around them, all kinds of brackets and separators',
  'A statement about all names and all surrounding arguments; a test of one misspelt name in one action says nothing about the other actions, some of which accept it.',
  [N+':get_bits',N+':action_bundle_str2act',N+':action_bundle_load_str2act',N+':action_reg_move_str2act',N+':action_multipath_str2act',O+':str2oxmid'])
p('C83','Numbers that do not fit in their bytes are refused, unless they are overwritten',
  'A rule of the notation, with instructions of at most 65535 bytes, either gives the message made of its parts or str2mod raises struct.error, and it raises exactly when there is no such message: when the command, the xid, one of the fixed fields as it stands at the end of the rule, or the length of the whole does not fit in its bytes. The same for str2group with the group number and the weight and watches of every bucket. An action that takes one number (set_mpls_ttl, set_nw_ttl, set_queue, group, output, push_vlan, push_mpls, push_pbb, pop_mpls, set_tunnel, set_tunnel64) is refused if the number is written out in full, in brackets or behind the name, and does not fit, negative numbers included; in brackets and behind "=" the exception is struct.error. So is a rule with @goto, @metadata or @meter and a number that does not fit, alone or behind any other rule. A number that is overwritten later in the same rule is not looked at.',
  'all rules and groups of the notation, all commands and xids, all numbers',
  'A statement about all numbers outside of a range and all texts around them; the tests of the project use numbers that fit.',
  [F+':str2mod',F+':str2bucket',F+':str2group',F+':action_uint_str2act',F+':action_output_str2act',F+':action_push_str2act',N+':action_set_tunnel_str2act'])
if __name__ == '__main__':
    for x in P: print(json.dumps(x))
