(** Generated by tools/gen_tables.py from /repo/ofpstr/oxm.py:910-1289: the two
    dictionaries _bin2str and _str2bin, one entry per registration line (the line
    number is in the comment). Order = registration order. *)
From Verif Require Import Base PyNum Util PyLib OxmCodec.

(** _bin2str *)
Definition bin2str_raw : list (key * b2s) :=
[
  (OFB "in_port", Bport $"in_port" 4); (* 910 *)
  (OFB "in_phy_port", Bport $"in_phy_port" 4); (* 913 *)
  (OFB "metadata", Buint $"metadata={:#x}/{:#x}"); (* 916 *)
  (OFB "eth_dst", Bmac $"eth_dst"); (* 919 *)
  (OFB "eth_src", Bmac $"eth_src"); (* 922 *)
  (OFB "eth_type", Buint $"eth_type={:#04x}"); (* 925 *)
  (OFB "vlan_vid", Buint $"vlan_vid={:#x}/{:#x}"); (* 928 *)
  (OFB "vlan_pcp", Buint $"vlan_pcp={:d}"); (* 931 *)
  (OFB "ip_dscp", Buint $"ip_dscp={:#x}"); (* 934 *)
  (OFB "ip_ecn", Buint $"ip_ecn={:#x}"); (* 937 *)
  (OFB "ip_proto", Buint $"ip_proto={:d}"); (* 940 *)
  (OFB "ipv4_src", Bipv4 $"ipv4_src"); (* 943 *)
  (OFB "ipv4_dst", Bipv4 $"ipv4_dst"); (* 946 *)
  (OFB "tcp_src", Buint $"tcp_src={:d}"); (* 949 *)
  (OFB "tcp_dst", Buint $"tcp_dst={:d}"); (* 952 *)
  (OFB "udp_src", Buint $"udp_src={:d}"); (* 955 *)
  (OFB "udp_dst", Buint $"udp_dst={:d}"); (* 958 *)
  (OFB "sctp_src", Buint $"sctp_src={:d}"); (* 961 *)
  (OFB "sctp_dst", Buint $"sctp_dst={:d}"); (* 964 *)
  (OFB "icmpv4_type", Buint $"icmpv4_type={:d}"); (* 967 *)
  (OFB "icmpv4_code", Buint $"icmpv4_code={:d}"); (* 970 *)
  (OFB "arp_op", Buint $"arp_op={:#d}"); (* 973 *)
  (OFB "arp_spa", Bipv4 $"arp_spa"); (* 976 *)
  (OFB "arp_tpa", Bipv4 $"arp_tpa"); (* 979 *)
  (OFB "arp_sha", Bmac $"arp_sha"); (* 982 *)
  (OFB "arp_tha", Bmac $"arp_tha"); (* 985 *)
  (OFB "ipv6_src", Bipv6 $"ipv6_src"); (* 988 *)
  (OFB "ipv6_dst", Bipv6 $"ipv6_dst"); (* 991 *)
  (OFB "ipv6_flabel", Buint $"ipv6_flabel={:#x}/{:#x}"); (* 994 *)
  (OFB "icmpv6_type", Buint $"icmpv6_type={:d}"); (* 997 *)
  (OFB "icmpv6_code", Buint $"icmpv6_code={:d}"); (* 1000 *)
  (OFB "ipv6_nd_target", Bipv6 $"ipv6_nd_target"); (* 1003 *)
  (OFB "ipv6_nd_sll", Bmac $"ipv6_nd_sll"); (* 1006 *)
  (OFB "ipv6_nd_tll", Bmac $"ipv6_nd_tll"); (* 1009 *)
  (OFB "mpls_label", Buint $"mpls_label={:#x}/{:#x}"); (* 1012 *)
  (OFB "mpls_tc", Buint $"mpls_tc={:d}"); (* 1015 *)
  (OFB "mpls_bos", Buint $"mpls_bos={:d}"); (* 1018 *)
  (OFB "pbb_isid", Buint $"pbb_isid={:#x}/{:#x}"); (* 1021 *)
  (OFB "tunnel_id", Buint $"tunnel_id={:#x}/{:#x}"); (* 1024 *)
  (OFB "ipv6_exthdr", Buint $"ipv6_exthdr={:#x}/{:#x}"); (* 1027 *)
  (OFB "pbb_uca", Buint $"pbb_uca={:d}"); (* 1030 *)
  (OFB "tcp_flags", Buint $"tcp_flags={:#04x}/{:#04x}"); (* 1033 *)
  (OFB "actset_output", Bport $"actset_output" 4); (* 1036 *)
  (OFB "packet_type", Bpkt); (* 1039 *)
  (NX0 "in_port", Bport $"nxm_in_port" 2); (* 1042 *)
  (NX0 "eth_dst", Bmac $"nxm_eth_dst"); (* 1045 *)
  (NX0 "eth_src", Bmac $"nxm_eth_src"); (* 1048 *)
  (NX0 "eth_type", Buint $"nxm_eth_type={:#06x}/{:#06x}"); (* 1051 *)
  (NX0 "vlan_tci", Buint $"nxm_vlan_tci={:#x}/{:#06x}"); (* 1054 *)
  (NX0 "ip_tos", Buint $"nxm_ip_tos={:#x}/{:#x}"); (* 1057 *)
  (NX0 "ip_proto", Buint $"nxm_ip_proto={:d}/{:d}"); (* 1060 *)
  (NX0 "ip_src", Bipv4 $"nxm_ip_src"); (* 1063 *)
  (NX0 "ip_dst", Bipv4 $"nxm_ip_dst"); (* 1066 *)
  (NX0 "tcp_src", Buint $"nxm_tcp_src={:d}/{:d}"); (* 1069 *)
  (NX0 "tcp_dst", Buint $"nxm_tcp_dst={:d}/{:d}"); (* 1072 *)
  (NX0 "udp_src", Buint $"nxm_udp_src={:d}/{:d}"); (* 1075 *)
  (NX0 "udp_dst", Buint $"nxm_udp_dst={:d}/{:d}"); (* 1078 *)
  (NX0 "icmp_type", Buint $"nxm_icmp_type={:d}/{:d}"); (* 1081 *)
  (NX0 "icmp_code", Buint $"nxm_icmp_code={:d}/{:d}"); (* 1084 *)
  (NX0 "arp_op", Buint $"nxm_arp_op={:#d}/{:#d}"); (* 1087 *)
  (NX0 "arp_spa", Bipv4 $"nxm_arp_spa"); (* 1090 *)
  (NX0 "arp_tpa", Bipv4 $"nxm_arp_tpa") (* 1093 *)
]
++ map (fun i => ((CNxm1, i), Buint ($"nxm_reg" ++ fmt_d i))) [0;1;2;3;4;5;6;7] (* oxm.py:1096-1100 *)
++ [
  (NX1 "tun_id", Buint $"nxm_tun_id={:#x}/{:#x}"); (* 1102 *)
  (NX1 "arp_sha", Bmac $"nxm_arp_sha"); (* 1105 *)
  (NX1 "arp_tha", Bmac $"nxm_arp_tha"); (* 1108 *)
  (NX1 "ipv6_src", Bipv6 $"nxm_ipv6_src"); (* 1111 *)
  (NX1 "ipv6_dst", Bipv6 $"nxm_ipv6_dst"); (* 1114 *)
  (NX1 "icmpv6_type", Buint $"nxm_icmpv6_type={:d}/{:d}"); (* 1117 *)
  (NX1 "icmpv6_code", Buint $"nxm_icmpv6_code={:d}/{:d}"); (* 1120 *)
  (NX1 "nd_target", Bipv6 $"nxm_nd_target"); (* 1123 *)
  (NX1 "nd_sll", Bmac $"nxm_nd_sll"); (* 1126 *)
  (NX1 "nd_tll", Bmac $"nxm_nd_tll"); (* 1129 *)
  (NX1 "ip_frag", Buint $"nxm_icmp_type={:d}/{:d}"); (* 1132 *)
  (NX1 "ipv6_label", Buint $"nxm_ipv6_label={:#x}/{:#x}"); (* 1135 *)
  (NX1 "ip_ecn", Buint $"nxm_ip_ecn={:#x}/{:#x}"); (* 1138 *)
  (NX1 "ip_ttl", Buint $"nxm_ip_ttl={:d}/{:d}"); (* 1141 *)
  (NX1 "tun_ipv4_src", Bipv4 $"nxm_tun_ipv4_src"); (* 1144 *)
  (NX1 "tun_ipv4_dst", Bipv4 $"nxm_tun_ipv4_dst"); (* 1147 *)
  (NX1 "pkt_mark", Buint $"nxm_pkt_mark={:#x}/{:#x}"); (* 1150 *)
  (NX1 "tcp_flags", Buint $"nxm_tcp_flags={:#06x}/{:#06x}"); (* 1153 *)
  (NX1 "dp_hash", Buint $"nxm_dp_hash={:#010x}/{:#010x}"); (* 1156 *)
  (NX1 "recirc_id", Buint $"nxm_recirc_id={:#010x}/{:#010x}"); (* 1159 *)
  (NX1 "conj_id", Buint $"nxm_conj_id={:#010x}/{:#010x}"); (* 1162 *)
  (NX1 "tun_gbp_id", Buint $"nxm_tun_gbp_id={:#06x}/{:#06x}"); (* 1165 *)
  (NX1 "tun_gbp_flags", Buint $"nxm_tun_gbp_flags={:#x}/{:#x}") (* 1168 *)
]
++ map (fun i => ((CNxm1, 40 + i), Bhex ($"nxm_tun_metadata" ++ fmt_d i))) (map Z.of_nat (seq 0 64)) (* oxm.py:1171-1175 *)
++ [
  (NX1 "tun_flags", Buint $"nxm_tun_flags={:#x}/{:#x}"); (* 1177 *)
  (NX1 "ct_state", Buint $"nxm_ct_state={:#x}/{:#x}"); (* 1180 *)
  (NX1 "ct_zone", Buint $"nxm_ct_zone={:#x}"); (* 1183 *)
  (NX1 "ct_label", Buint $"nxm_ct_label={:#x}/{:#x}"); (* 1186 *)
  (NX1 "tun_ipv6_src", Bipv6 $"nxm_tun_ipv6_src"); (* 1189 *)
  (NX1 "tun_ipv6_dst", Bipv6 $"nxm_tun_ipv6_dst"); (* 1192 *)
  (STR "dot11", Buint $"dot11={:d}"); (* 1195 *)
  (STR "dot11_frame_ctrl", Bhex $"dot11_frame_ctrl"); (* 1198 *)
  (STR "dot11_addr1", Bmac $"dot11_addr1"); (* 1201 *)
  (STR "dot11_addr2", Bmac $"dot11_addr2"); (* 1204 *)
  (STR "dot11_addr3", Bmac $"dot11_addr3"); (* 1207 *)
  (STR "dot11_addr4", Bmac $"dot11_addr4"); (* 1210 *)
  (STR "dot11_ssid", Bssid); (* 1213 *)
  (STR "dot11_action_category", Bhex $"dot11_action_category"); (* 1216 *)
  (STR "dot11_public_action", Buint $"dot11_public_action={:d}"); (* 1219 *)
  (STR "dot11_tag", Buint $"dot11_tag={:d}"); (* 1222 *)
  (STR "dot11_tag_vendor", Bhex $"dot11_tag_vendor"); (* 1225 *)
  (STR "tsft", Ble $"radiotap_tsft={:d}"); (* 1228 *)
  (STR "flags", Ble $"radiotap_flags={:#04x}/{:#04x}"); (* 1231 *)
  (STR "rate", Brate); (* 1234 *)
  (STR "channel", Bch); (* 1237 *)
  (STR "fhss", Bhex $"radiotap_fhss"); (* 1240 *)
  (STR "dbm_antsignal", Bs8 $"radiotap_dbm_antsignal"); (* 1243 *)
  (STR "dbm_antnoise", Bs8 $"radiotap_dbm_antnoise"); (* 1246 *)
  (STR "lock_quality", Ble $"radiotap_lock_quality={:d}"); (* 1249 *)
  (STR "tx_attenuation", Ble $"radiotap_tx_attenuation={:d}"); (* 1252 *)
  (STR "db_tx_attenuation", Ble $"radiotap_db_tx_attenuation={:d}"); (* 1255 *)
  (STR "dbm_tx_power", Bs8 $"radiotap_dbm_tx_power"); (* 1258 *)
  (STR "antenna", Ble $"radiotap_antenna={:d}"); (* 1261 *)
  (STR "db_antsignal", Ble $"radiotap_db_antsignal={:d}"); (* 1264 *)
  (STR "db_antnoise", Ble $"radiotap_db_antnoise={:d}"); (* 1267 *)
  (STR "rx_flags", Ble $"radiotap_rx_flags={:#06x}"); (* 1270 *)
  (STR "tx_flags", Ble $"radiotap_tx_flags={:#06x}"); (* 1273 *)
  (STR "rts_retries", Ble $"radiotap_rts_retries={:d}"); (* 1276 *)
  (STR "data_retries", Ble $"radiotap_data_retries={:d}"); (* 1279 *)
  (STR "mcs", Bcomp $"radiotap_mcs" [lB; lB; lB] [$"{:#04x}"; $"{:d}"; $"{:d}"]); (* 1282 *)
  (STR "ampdu_status", Bcomp $"radiotap_ampdu_status" [lI; lH; lB; lB] [$"{:#010x}"; $"{:#06x}"; $"{:#04x}"; $"{:#02x}"]); (* 1285 *)
  (STR "vht", Bvht) (* 1288 *)
].

(** _str2bin *)
Definition str2bin_raw : list (text * s2b) :=
[
  ($"in_port", Sport (OFB "in_port") 4); (* 911 *)
  ($"in_phy_port", Sport (OFB "in_phy_port") 4); (* 914 *)
  ($"metadata", Suint (OFB "metadata") 8); (* 917 *)
  ($"eth_dst", Smac (OFB "eth_dst")); (* 920 *)
  ($"eth_src", Smac (OFB "eth_src")); (* 923 *)
  ($"eth_type", Suint (OFB "eth_type") 2); (* 926 *)
  ($"vlan_vid", Suint (OFB "vlan_vid") 2); (* 929 *)
  ($"vlan_pcp", Suint (OFB "vlan_pcp") 1); (* 932 *)
  ($"ip_dscp", Suint (OFB "ip_dscp") 1); (* 935 *)
  ($"ip_ecn", Suint (OFB "ip_ecn") 1); (* 938 *)
  ($"ip_proto", Suint (OFB "ip_proto") 1); (* 941 *)
  ($"ipv4_src", Sipv4 (OFB "ipv4_src")); (* 944 *)
  ($"ipv4_dst", Sipv4 (OFB "ipv4_dst")); (* 947 *)
  ($"tcp_src", Suint (OFB "tcp_src") 2); (* 950 *)
  ($"tcp_dst", Suint (OFB "tcp_dst") 2); (* 953 *)
  ($"udp_src", Suint (OFB "udp_src") 2); (* 956 *)
  ($"udp_dst", Suint (OFB "udp_dst") 2); (* 959 *)
  ($"sctp_src", Suint (OFB "sctp_src") 2); (* 962 *)
  ($"sctp_dst", Suint (OFB "sctp_dst") 2); (* 965 *)
  ($"icmpv4_type", Suint (OFB "icmpv4_type") 1); (* 968 *)
  ($"icmpv4_code", Suint (OFB "icmpv4_code") 1); (* 971 *)
  ($"arp_op", Suint (OFB "arp_op") 2); (* 974 *)
  ($"arp_spa", Sipv4 (OFB "arp_spa")); (* 977 *)
  ($"arp_tpa", Sipv4 (OFB "arp_tpa")); (* 980 *)
  ($"arp_sha", Smac (OFB "arp_sha")); (* 983 *)
  ($"arp_tha", Smac (OFB "arp_tha")); (* 986 *)
  ($"ipv6_src", Sipv6 (OFB "ipv6_src")); (* 989 *)
  ($"ipv6_dst", Sipv6 (OFB "ipv6_dst")); (* 992 *)
  ($"ipv6_flabel", Suint (OFB "ipv6_flabel") 4); (* 995 *)
  ($"icmpv6_type", Suint (OFB "icmpv6_type") 1); (* 998 *)
  ($"icmpv6_code", Suint (OFB "icmpv6_code") 1); (* 1001 *)
  ($"ipv6_nd_target", Sipv6 (OFB "ipv6_nd_target")); (* 1004 *)
  ($"ipv6_nd_sll", Smac (OFB "ipv6_nd_sll")); (* 1007 *)
  ($"ipv6_nd_tll", Smac (OFB "ipv6_nd_tll")); (* 1010 *)
  ($"mpls_label", Suint (OFB "mpls_label") 4); (* 1013 *)
  ($"mpls_tc", Suint (OFB "mpls_tc") 1); (* 1016 *)
  ($"mpls_bos", Suint (OFB "mpls_bos") 1); (* 1019 *)
  ($"pbb_isid", Suint (OFB "pbb_isid") 3); (* 1022 *)
  ($"tunnel_id", Suint (OFB "tunnel_id") 8); (* 1025 *)
  ($"ipv6_exthdr", Suint (OFB "ipv6_exthdr") 2); (* 1028 *)
  ($"pbb_uca", Suint (OFB "pbb_uca") 1); (* 1031 *)
  ($"tcp_flags", Suint (OFB "tcp_flags") 2); (* 1034 *)
  ($"actset_output", Sport (OFB "actset_output") 4); (* 1037 *)
  ($"packet_type", Spkt); (* 1040 *)
  ($"nxm_in_port", Sport (NX0 "in_port") 2); (* 1043 *)
  ($"nxm_eth_dst", Smac (NX0 "eth_dst")); (* 1046 *)
  ($"nxm_eth_src", Smac (NX0 "eth_src")); (* 1049 *)
  ($"nxm_eth_type", Suint (NX0 "eth_type") 2); (* 1052 *)
  ($"nxm_vlan_tci", Suint (NX0 "vlan_tci") 2); (* 1055 *)
  ($"nxm_ip_tos", Suint (NX0 "ip_tos") 1); (* 1058 *)
  ($"nxm_ip_proto", Suint (NX0 "ip_proto") 1); (* 1061 *)
  ($"nxm_ip_src", Sipv4 (NX0 "ip_src")); (* 1064 *)
  ($"nxm_ip_dst", Sipv4 (NX0 "ip_dst")); (* 1067 *)
  ($"nxm_tcp_src", Suint (NX0 "tcp_src") 2); (* 1070 *)
  ($"nxm_tcp_dst", Suint (NX0 "tcp_dst") 2); (* 1073 *)
  ($"nxm_udp_src", Suint (NX0 "udp_src") 2); (* 1076 *)
  ($"nxm_udp_dst", Suint (NX0 "udp_dst") 2); (* 1079 *)
  ($"nxm_icmp_type", Suint (NX0 "icmp_type") 1); (* 1082 *)
  ($"nxm_icmp_code", Suint (NX0 "icmp_code") 1); (* 1085 *)
  ($"nxm_arp_op", Suint (NX0 "arp_op") 2); (* 1088 *)
  ($"nxm_arp_spa", Sipv4 (NX0 "arp_spa")); (* 1091 *)
  ($"nxm_arp_tpa", Sipv4 (NX0 "arp_tpa")) (* 1094 *)
]
++ map (fun i => ($"nxm_reg" ++ fmt_d i, Suint (CNxm1, i) 4)) [0;1;2;3;4;5;6;7] (* oxm.py:1096-1100 *)
++ [
  ($"nxm_tun_id", Suint (NX1 "tun_id") 8); (* 1103 *)
  ($"nxm_arp_sha", Smac (NX1 "arp_sha")); (* 1106 *)
  ($"nxm_arp_tha", Smac (NX1 "arp_tha")); (* 1109 *)
  ($"nxm_ipv6_src", Sipv6 (NX1 "ipv6_src")); (* 1112 *)
  ($"nxm_ipv6_dst", Sipv6 (NX1 "ipv6_dst")); (* 1115 *)
  ($"nxm_icmpv6_type", Suint (NX1 "icmpv6_type") 1); (* 1118 *)
  ($"nxm_icmpv6_code", Suint (NX1 "icmpv6_code") 1); (* 1121 *)
  ($"nxm_nd_target", Sipv6 (NX1 "nd_target")); (* 1124 *)
  ($"nxm_nd_sll", Smac (NX1 "nd_sll")); (* 1127 *)
  ($"nxm_nd_tll", Smac (NX1 "nd_tll")); (* 1130 *)
  ($"nxm_ip_frag", Suint (NX1 "ip_frag") 1); (* 1133 *)
  ($"nxm_ipv6_label", Suint (NX1 "ipv6_label") 4); (* 1136 *)
  ($"nxm_ip_ecn", Suint (NX1 "ip_ecn") 1); (* 1139 *)
  ($"nxm_ip_ttl", Suint (NX1 "ip_ttl") 1); (* 1142 *)
  ($"nxm_tun_ipv4_src", Sipv4 (NX1 "tun_ipv4_src")); (* 1145 *)
  ($"nxm_tun_ipv4_dst", Sipv4 (NX1 "tun_ipv4_dst")); (* 1148 *)
  ($"nxm_pkt_mark", Suint (NX1 "pkt_mark") 4); (* 1151 *)
  ($"nxm_tcp_flags", Suint (NX1 "tcp_flags") 2); (* 1154 *)
  ($"nxm_dp_hash", Suint (NX1 "dp_hash") 4); (* 1157 *)
  ($"nxm_recirc_id", Suint (NX1 "recirc_id") 4); (* 1160 *)
  ($"nxm_conj_id", Suint (NX1 "conj_id") 4); (* 1163 *)
  ($"nxm_tun_gbp_id", Suint (NX1 "tun_gbp_id") 2); (* 1166 *)
  ($"nxm_tun_gbp_flags", Suint (NX1 "tun_gbp_flags") 1) (* 1169 *)
]
++ map (fun i => ($"nxm_tun_metadata" ++ fmt_d i, Shex (CNxm1, 40 + i))) (map Z.of_nat (seq 0 64)) (* oxm.py:1171-1175 *)
++ [
  ($"nxm_tun_flags", Suint (NX1 "tun_flags") 2); (* 1178 *)
  ($"nxm_ct_state", Suint (NX1 "ct_state") 4); (* 1181 *)
  ($"nxm_ct_zone", Suint (NX1 "ct_zone") 2); (* 1184 *)
  ($"nxm_ct_label", Suint (NX1 "ct_label") 4); (* 1187 *)
  ($"nxm_tun_ipv6_src", Sipv6 (NX1 "tun_ipv6_src")); (* 1190 *)
  ($"nxm_tun_ipv6_dst", Sipv6 (NX1 "tun_ipv6_dst")); (* 1193 *)
  ($"dot11", Suint (STR "dot11") 1); (* 1196 *)
  ($"dot11_frame_ctrl", Shex (STR "dot11_frame_ctrl")); (* 1199 *)
  ($"dot11_addr1", Smac (STR "dot11_addr1")); (* 1202 *)
  ($"dot11_addr2", Smac (STR "dot11_addr2")); (* 1205 *)
  ($"dot11_addr3", Smac (STR "dot11_addr3")); (* 1208 *)
  ($"dot11_addr4", Smac (STR "dot11_addr4")); (* 1211 *)
  ($"dot11_ssid", Sssid); (* 1214 *)
  ($"dot11_action_category", Shex (STR "dot11_action_category")); (* 1217 *)
  ($"dot11_public_action", Suint (STR "dot11_public_action") 1); (* 1220 *)
  ($"dot11_tag", Suint (STR "dot11_tag") 1); (* 1223 *)
  ($"dot11_tag_vendor", Shex (STR "dot11_tag_vendor")); (* 1226 *)
  ($"radiotap_tsft", Sle (STR "tsft") 8); (* 1229 *)
  ($"radiotap_flags", Sle (STR "flags") 1); (* 1232 *)
  ($"radiotap_rate", Srate); (* 1235 *)
  ($"radiotap_channel", Sch); (* 1238 *)
  ($"radiotap_fhss", Shex (STR "fhss")); (* 1241 *)
  ($"radiotap_dbm_antsignal", Ss8 (STR "dbm_antsignal")); (* 1244 *)
  ($"radiotap_dbm_antnoise", Ss8 (STR "dbm_antnoise")); (* 1247 *)
  ($"radiotap_lock_quality", Sle (STR "lock_quality") 2); (* 1250 *)
  ($"radiotap_tx_attenuation", Sle (STR "tx_attenuation") 2); (* 1253 *)
  ($"radiotap_db_tx_attenuation", Sle (STR "db_tx_attenuation") 2); (* 1256 *)
  ($"radiotap_dbm_tx_power", Ss8 (STR "dbm_tx_power")); (* 1259 *)
  ($"radiotap_antenna", Sle (STR "antenna") 1); (* 1262 *)
  ($"radiotap_db_antsignal", Sle (STR "db_antsignal") 1); (* 1265 *)
  ($"radiotap_db_antnoise", Sle (STR "db_antnoise") 1); (* 1268 *)
  ($"radiotap_rx_flags", Sle (STR "rx_flags") 2); (* 1271 *)
  ($"radiotap_tx_flags", Sle (STR "tx_flags") 2); (* 1274 *)
  ($"radiotap_rts_retries", Sle (STR "rts_retries") 1); (* 1277 *)
  ($"radiotap_data_retries", Sle (STR "data_retries") 1); (* 1280 *)
  ($"radiotap_mcs", Scomp (STR "mcs") [lB; lB; lB]); (* 1283 *)
  ($"radiotap_ampdu_status", Scomp (STR "ampdu_status") [lI; lH; lB; lB]); (* 1286 *)
  ($"radiotap_vht", Svht) (* 1289 *)
].

Definition bin2str_tbl : list (key * b2s) := Eval vm_compute in bin2str_raw.
Definition str2bin_tbl : list (text * s2b) := Eval vm_compute in str2bin_raw.
