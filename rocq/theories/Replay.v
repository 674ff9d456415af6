(** The repository's own test vectors (/repo/test/*.py), run on the model.
    Generated by tools/gen_replay.py from the test sources as text.  All pass but
    test_mpflow, which fails on the code as well (priority default, see
    [test_mpflow_fails]). *)
From Verif Require Import Base PyNum Util PyLib OxmCodec OxmTables Oxm Nx Ofp4.

Definition ok_eq (r : res text) (t : text) : bool :=
  match r with Ok x => text_eqb x t | _ => false end.

(** /repo/test/test_util.py:5-15 *)
Definition util_rules : list (text * (text * text * text)) :=
  [ ($"a,b,c", ($"", $"a", $",b,c"));
    ($",b,c", ($",", $"b", $",c"));
    ($",c", ($",", $"c", $""));
    ($"a b c", ($"", $"a", $" b c"));
    ($" b c", ($" ", $"b", $" c"));
    ($" c", ($" ", $"c", $""));
    ($"a = b, c = d", ($"", $"a", $" = b, c = d"));
    ($" = b, c = d", ($" = ", $"b", $", c = d"));
    ($"learn(hoge),learn(geho)", ($"", $"learn(hoge)", $",learn(geho)")) ].
Example test_util :
  forallb (fun '(i, (a, b, c)) =>
             let '(x, y, z) := get_token i in text_eqb x a && text_eqb y b && text_eqb z c)
          util_rules = true.
Proof. vm_compute. reflexivity. Qed.

(** /repo/test/test_oxm.py:6-63 *)
Definition oxm_rules : list text :=
  [ $"in_port=any";
    $"in_port=10";
    $"in_phy_port=10";
    $"metadata=0x5/0xff";
    $"eth_src=00:00:00:00:00:00";
    $"eth_src=00:00:00:00:00:00/01:00:00:00:00:00";
    $"ipv4_src=192.168.0.1";
    $"ipv4_src=192.168.0.1/255.255.255.0";
    $"ipv4_src=192.168.0.1/255.0.255.255";
    $"ipv6_src=::/ffff::";
    $"vlan_vid=0x5";
    $"vlan_vid=0x1000/0x1000";
    $"pbb_isid=0x5";
    $"packet_type=0x2:0x3";
    $"dot11=0";
    $"dot11=1";
    $"dot11_frame_ctrl=0000";
    $"dot11_frame_ctrl=0000/fff0";
    $"dot11_addr1=ff:ff:ff:ff:ff:ff";
    $"dot11_addr1=01:00:00:00:00:00/01:00:00:00:00:00";
    $"dot11_ssid=stratos1";
    $"dot11_ssid=stratos/ffffffffffffff00000000";
    $"dot11_action_category=03";
    $"dot11_action_category=7f00e04d";
    $"dot11_public_action=10";
    $"dot11_tag=0";
    $"dot11_tag_vendor=00e04d";
    $"radiotap_tsft=1";
    $"radiotap_flags=0x00";
    $"radiotap_rate=500.0K";
    $"radiotap_rate=11.0M";
    $"radiotap_channel=2412:0x1234";
    $"radiotap_channel=2412:0x1234/:0x00ff";
    $"radiotap_fhss=0102";
    $"radiotap_dbm_antsignal=-80";
    $"radiotap_mcs=0x01:1:2";
    $"radiotap_ampdu_status=0x12345678:0x1234:0x12:0x12";
    $"radiotap_ampdu_status=:::/0x12345678:0x1234:0x12:0x12";
    $"radiotap_vht=0x1234:0x12:0:12345678:0x12:0:0x0000";
    $"nxm_in_port=any";
    $"nxm_eth_dst=00:11:22:33:44:55";
    $"nxm_eth_src=00:11:22:33:44:55/01:00:00:00:00:00";
    $"nxm_eth_type=0x88a8";
    $"nxm_vlan_tci=0x3001";
    $"nxm_ip_tos=0x10";
    $"nxm_ip_proto=6";
    $"nxm_ip_src=192.168.0.1";
    $"nxm_ip_dst=192.168.0.0/255.255.255.0";
    $"nxm_tcp_src=80";
    $"nxm_tcp_dst=8080";
    $"nxm_udp_src=53";
    $"nxm_udp_dst=4789";
    $"nxm_icmp_type=30";
    $"nxm_icmp_code=0";
    $"nxm_arp_op=1";
    $"nxm_arp_spa=192.168.0.1";
    $"nxm_arp_tpa=192.168.0.0/255.255.255.0" ].
Example test_oxm_all :
  forallb (fun r => match str2oxm r true with
                    | Ok (m, l) => Nat.eqb l (length r) && ok_eq (oxm2str m true) r
                    | _ => false end) oxm_rules = true.
Proof. vm_compute. reflexivity. Qed.
Example test_oxm_id :
  forallb (fun r => let n := fst (split1 61 r) in
                    match str2oxmid n true with
                    | Ok m => (Nat.eqb (length m) 4 || Nat.eqb (length m) 8) && ok_eq (oxmid2str m true) n
                    | _ => false end) oxm_rules = true.
Proof. vm_compute. reflexivity. Qed.

(** /repo/test/test_ofp4.py:5-44 *)
Definition act_rules : list text :=
  [ $"output=controller";
    $"output=1";
    $"copy_ttl_out";
    $"copy_ttl_in";
    $"set_mpls_ttl=3";
    $"dec_mpls_ttl";
    $"push_vlan=0x8100";
    $"pop_vlan";
    $"push_mpls=0x8847";
    $"pop_mpls=0x0800";
    $"set_queue=1";
    $"group=1";
    $"set_nw_ttl=3";
    $"dec_nw_ttl";
    $"set_vlan_vid=0x10";
    $"push_pbb=0x88e7";
    $"pop_pbb";
    $"cnt_ids(0x1,0x2,0x3)";
    $"reg_load(nxm_vlan_tci=0xa/0x0fff)";
    $"reg_load2(nxm_vlan_tci=0xa/0x0fff)";
    $"reg_move(nxm_eth_dst=nxm_eth_src)";
    $"reg_move(nxm_eth_dst[0:4]=nxm_eth_src[4:8])";
    $"resubmit(in_port)";
    $"resubmit(1)";
    $"resubmit_table(in_port,all)";
    $"resubmit_table(1,1)";
    $"set_tunnel(0x11223344)";
    $"set_tunnel64(0x1122334455667788)";
    $"pop_queue";
    $"note(openflow)";
    $"multipath(eth_src,50,hrw,12,0x0,nxm_reg0[0:4])";
    $"bundle(eth_src,50,active_backup,nxm_in_port,slaves(1,2,3))";
    $"bundle_load(symmetric_l4,60,hrw,nxm_in_port,nxm_reg0[0:16],slaves(2,3))";
    $"output_reg(in_port)";
    $"output_reg(in_port[0:1])";
    $"output_reg2(in_port)";
    $"output_reg2(in_port[0:1])";
    $"learn(nxm_in_port=0x10,nxm_eth_dst=nxm_eth_src,reg_load(nxm_reg1[16:32]=nxm_in_port))" ].
Example test_action :
  forallb (fun r => match str2act r with
                    | Ok (m, l) => Nat.eqb l (length r) && ok_eq (act2str m true) r
                    | _ => false end) act_rules = true.
Proof. vm_compute. reflexivity. Qed.

(** /repo/test/test_ofp4.py:45-67 *)
Definition rt_mod (command : Z) (src dst : text) : bool :=
  match str2mod src command 0 with Ok m => ok_eq (mod2str m) dst | _ => false end.
Definition flow_rules : list text :=
  [ $"cookie=0x1";
    $"cookie=0x1/0xf";
    $"table=2";
    $"priority=10";
    $"buffer=0x3";
    $"idle_timeout=10";
    $"hard_timeout=4";
    $"@metadata=0x1,@meter=3,@apply,@clear,@write,@goto=5";
    $"dot11=1,dot11_frame_ctrl=40/ff,@apply,output=controller";
    $"table=1,priority=10,in_port=1,@apply,output=controller,@goto=2";
    $"priority=20,idle_timeout=30,dot11=1,dot11_frame_ctrl=00/0f,dot11_addr2=01:23:45:67:89:01,@apply,output=controller";
    $"cookie=0x1/0xf,priority=4,buffer=0x1,idle_timeout=300,hard_timeout=300,vlan_vid=0x1,@apply,set_vlan_vid=0x2,output=3,@goto=3" ].
Definition del_rules : list text :=
  [ $"out_port=1";
    $"out_port=controller";
    $"out_group=1" ].
Definition alias_rules : list (text * text) :=
  [ ($"@apply,set_nxm_tun_ipv4_src(192.168.0.1),set_nxm_tun_ipv4_dst(192.168.0.2)", $"@apply,set_nxm_tun_ipv4_src=192.168.0.1,set_nxm_tun_ipv4_dst=192.168.0.2") ].
Example test_mod :
  forallb (fun r => rt_mod 0 r r) flow_rules
  && forallb (fun r => rt_mod 3 r r) del_rules
  && forallb (fun ab => rt_mod 0 (fst ab) (snd ab)) alias_rules = true.
Proof. vm_compute. reflexivity. Qed.

(** /repo/test/test_ofp4_mp.py *)
Definition lines (l : list text) : text := join [10] l.
Definition mpflow_texts : list text :=
  [ lines [ $"in_port=1,@apply,output=2";
    $"in_port=2,@apply,output=1" ];
    lines [ $"packet_count=1,byte_count=2,duration_sec=3,duration_nsec=4 in_port=1,@apply,output=2";
    $"packet_count=5,byte_count=6,duration_sec=7,duration_nsec=8 in_port=1,@apply,output=2" ] ].
Definition mpgroupdesc_texts : list text :=
  [ lines [ $"group=1,all,@bucket,output=1,@bucket,output=2";
    $"group=2,select,@bucket,output=1,@bucket,output=2";
    $"group=4,indirect,@bucket,output=2";
    $"group=3,ff,@bucket,watch_port=7,output=2" ] ].
Definition mpgroup_texts : list text :=
  [ lines [ $"group=1 @bucket,packet_count=1,@bucket,packet_count=2";
    $"group=2 packet_count=5,byte_count=6,duration_sec=1,duration_nsec=2,@bucket,byte_count=4" ] ].
Example test_mpgroupdesc :
  forallb (fun t => match text2mpgroupdesc t 19 0 with
                    | Ok m => ok_eq (mpgroupdesc2text m) t | _ => false end) mpgroupdesc_texts = true.
Proof. vm_compute. reflexivity. Qed.
Example test_mpgroup :
  forallb (fun t => match text2mpgroup t 19 0 with
                    | Ok m => ok_eq (mpgroup2text m) t | _ => false end) mpgroup_texts = true.
Proof. vm_compute. reflexivity. Qed.
(** text2mpflow encodes a missing priority as 0 (ofp4.py:790), mpflow2text suppresses
    0x8000 (ofp4.py:870): the repository's test_mpflow cannot pass. *)
Example test_mpflow_fails :
  map (fun t => match text2mpflow t 19 0 with Ok m => mpflow2text m | _ => Raise ValueError end)
      (firstn 1 mpflow_texts)
  = [Ok (lines [$"priority=0,in_port=1,@apply,output=2"; $"priority=0,in_port=2,@apply,output=1"])].
Proof. vm_compute. reflexivity. Qed.
