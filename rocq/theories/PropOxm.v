(** Properties C08-C21: match fields (oxm.py). *)
From Coq Require Import Strings.Ascii.
From Verif Require Import Base PyNum Util PyLib OxmCodec OxmTables Oxm Spec SpecOxm.
From Verif Require Import BaseFacts NumFacts PyLibFacts OxmRead OxmPrint OxmFacts OxmFrame OxmMore.

(** what [name=u] must become *)
Definition encodes (u : text) (t : tlv) : Prop := str2oxm u true = Ok (wire t, length u).
Definition prints_as (t : tlv) (u : text) : Prop := oxm2str (wire t) true = Ok u.

(** ** C08 *)
Theorem C08_plain : forall f n s ms v, In f registry -> fkind f = KInt n s ms -> ~ In (fname f) misprinted -> in_bytes n v ->
  prints_as (Tlv f (be n v) None) (fname f ++ $"=" ++ number s v)
  /\ encodes (fname f ++ $"=" ++ number s v) (Tlv f (be n v) None).
Proof.
  intros f n s ms v Hf Ek Hp Hv.
  assert (good (Tlv f (be n v) None)) as G.
  { split; [exact Hf|]. cbn [tfield tval tmask]. rewrite Ek. cbn [good_value good_mask]. split; [apply be_length|]. split; [exact I|].
    apply (fits_width f _ _ n); auto using be_length. now rewrite Ek. }
  assert (text_of (Tlv f (be n v) None) = fname f ++ $"=" ++ number s v) as E.
  { unfold text_of, body. cbn [tfield tval tmask]. rewrite Ek, app_nil_r. cbn [value_str]. rewrite num_be_be, Z.mod_small by exact Hv. reflexivity. }
  split; unfold prints_as, encodes; rewrite <- E; [now apply good_prints|now apply good_reads].
Qed.
Theorem C08_masked : forall f n s s' v w, In f registry -> fkind f = KInt n s (Some s') -> ~ In (fname f) misprinted ->
  in_bytes n v -> in_bytes n w ->
  prints_as (Tlv f (be n v) (Some (be n w))) (fname f ++ $"=" ++ number s v ++ $"/" ++ number s' w)
  /\ encodes (fname f ++ $"=" ++ number s v ++ $"/" ++ number s' w) (Tlv f (be n v) (Some (be n w))).
Proof.
  intros f n s s' v w Hf Ek Hp Hv Hw.
  assert (good (Tlv f (be n v) (Some (be n w)))) as G.
  { split; [exact Hf|]. cbn [tfield tval tmask]. rewrite Ek. cbn [good_value good_mask]. split; [apply be_length|].
    split; [split; [now rewrite !be_length|exact I]|]. apply (fits_width f _ _ n); auto using be_length; [now rewrite Ek|now rewrite !be_length]. }
  assert (text_of (Tlv f (be n v) (Some (be n w))) = fname f ++ $"=" ++ number s v ++ $"/" ++ number s' w) as E.
  { unfold text_of, body. cbn [tfield tval tmask]. rewrite Ek. cbn [value_str mask_str]. rewrite !num_be_be, !Z.mod_small by assumption. reflexivity. }
  split; unfold prints_as, encodes; rewrite <- E; [now apply good_prints|now apply good_reads].
Qed.
(** every registered integer field, misprinted or not, and every literal reads back *)
Theorem C08_read : forall f n s ms v w u u', In f registry -> fkind f = KInt n s ms -> literal u v -> literal u' w ->
  encodes (fname f ++ $"=" ++ u) (Tlv f (be n v) None)
  /\ encodes (fname f ++ $"=" ++ u ++ $"/" ++ u') (Tlv f (be n v) (Some (be n w))).
Proof.
  intros f n s ms v w u u' Hf Ek Hu Hw. split; apply field_reads; auto using reg_accepted; rewrite Ek; constructor; auto.
Qed.
Example C08_case : In (Field $"metadata" Basic 2 (KInt 8 (Hex 0) (Some (Hex 0)))) registry /\ in_bytes 8 0xfedcba9876543210
  /\ oxm2str (wire (Tlv (Field $"metadata" Basic 2 (KInt 8 (Hex 0) (Some (Hex 0)))) (be 8 0xfedcba9876543210) (Some (be 8 0xff)))) true
     = Ok $"metadata=0xfedcba9876543210/0xff".
Proof. split; [vm_compute; tauto|]. split; [unfold in_bytes; cbn; lia|vm_compute; reflexivity]. Qed.
(** the exceptions: no value is printed for registers, whatever the value and mask ... *)
Theorem C08_registers_refuted : forall i v m, 0 <= i < 8 -> length v = 4%nat -> match m with Some m => length m = 4%nat | None => True end ->
  prints_as (Tlv (Field ($"nxm_reg" ++ dec i) Nxm1 i (KInt 4 (Hex 0) (Some (Hex 0)))) v m) ($"nxm_reg" ++ dec i).
Proof. exact reg_printed. Qed.
(** ... nxm_ip_frag is printed as nxm_icmp_type ... *)
Theorem C08_ip_frag_refuted : forall v, in_bytes 1 v ->
  prints_as (Tlv (Field $"nxm_ip_frag" Nxm1 26 (KInt 1 Dec (Some Dec))) (be 1 v) None) ($"nxm_icmp_type=" ++ dec v).
Proof. exact frag_printed. Qed.
(** ... and the mask of a field printed without one is dropped *)
Theorem C08_mask_dropped_refuted : forall f n s v m, In f registry -> ~ In (fname f) misprinted -> fkind f = KInt n s None ->
  length v = n -> length m = n -> oxm2str (wire (Tlv f v (Some m))) true = oxm2str (wire (Tlv f v None)) true.
Proof.
  intros f n s v m Hf Hp Ek Hv Hm. rewrite (mask_lost f n s v m) by auto. symmetry. apply good_prints; auto.
  split; [exact Hf|]. cbn [tfield tval tmask]. rewrite Ek. cbn [good_value good_mask]. split; [exact Hv|]. split; [exact I|].
  apply (fits_width f _ _ n); auto. now rewrite Ek.
Qed.
Example C08_mask_dropped_case : oxm2str (wire (Tlv (Field $"eth_type" Basic 5 (KInt 2 (Hex 2) None)) [x08; x00] (Some [xff; x00]))) true
  = Ok $"eth_type=0x800".
Proof. vm_compute. reflexivity. Qed.

(** the connection-tracking fields: nxm_ct_mark is not known at all, and nxm_ct_label
    (16 bytes on the wire) is written with 4 *)
Theorem C08_ct_refuted : (forall r, ends r -> exists e, str2oxm ($"nxm_ct_mark" ++ r) true = Raise e)
  /\ forall u v, literal u v -> str2oxm ($"nxm_ct_label=" ++ u) true
       = Ok (wire (Tlv ct_label (be 4 v) None), length ($"nxm_ct_label=" ++ u)).
Proof.
  split.
  - intros r Hr. apply (unknown_raises $"nxm_ct_mark" [] r true); auto using Forall_nil; try discriminate.
    + apply plain_token, Forall_forall. intros c Hc. apply plainb_plain. revert c Hc. apply forallb_forall. reflexivity.
    + cbn. unfold blank. lia.
    + apply not_in_names. vm_compute. reflexivity.
  - intros u v Hu. pose proof (field_reads ct_label4 u (be 4 v) None (or_introl eq_refl)) as E.
    exact (E (w_int 4 (Hex 0) (Some (Hex 0)) u v Hu)).
Qed.

(** every well-formed TLV of a registered field other than the misprinted integers *)
Lemma good_both : forall t, good t -> printable t -> prints_as t (text_of t) /\ encodes (text_of t) t.
Proof. intros t G P. split; [now apply good_prints|now apply good_reads]. Qed.
Ltac both Ek :=
  match goal with |- prints_as ?t _ /\ _ => 
    assert (good t) as G; [split; [assumption|]; cbn [tfield tval tmask]; rewrite Ek; cbn [good_value good_mask]|
    let P := fresh in assert (printable t) as P; [apply printable_kind; [assumption|rewrite Ek; exact I]|
    pose proof (good_both t G P) as [? ?]; unfold text_of, body in *; cbn [tfield tval tmask] in *; rewrite Ek in *;
    cbn [value_str mask_str] in *; rewrite ?app_nil_r in *; auto]] end.

(** ** C09 *)
Theorem C09_port : forall f n v, In f registry -> fkind f = KPort n -> in_bytes n v ->
  prints_as (Tlv f (be n v) None) (fname f ++ $"=" ++ port_text n v)
  /\ encodes (fname f ++ $"=" ++ port_text n v) (Tlv f (be n v) None).
Proof.
  intros f n v Hf Ek Hv. rewrite <- (Z.mod_small v (256 ^ Z.of_nat n)) at 2 3 by exact Hv. rewrite <- num_be_be. both Ek.
  split; [apply be_length|]. split; [exact I|]. apply (fits_width f _ _ n); auto using be_length. now rewrite Ek.
Qed.
Theorem C09_names : forall f n p lo up, In f registry -> fkind f = KPort n -> In (p, (lo, up)) reserved ->
  encodes (fname f ++ $"=" ++ lo) (Tlv f (be n p) None) /\ encodes (fname f ++ $"=" ++ up) (Tlv f (be n p) None).
Proof.
  intros f n p lo up Hf Ek Hp. split; apply field_reads; auto using reg_accepted; rewrite Ek; eapply w_port_name; eauto.
Qed.
Example C09_case : map (fun v => port_text 2 v) [0xfff8; 0xfffd; 0xff01] = [$"in_port"; $"controller"; $"65281"]
  /\ str2oxm $"in_port=CONTROLLER" true = Ok ([x80; x00; x00; x04; xff; xff; xff; xfd], 18%nat)
  /\ oxm2str [x00; x00; x00; x02; xff; xfe] true = Ok $"nxm_in_port=local".
Proof. vm_compute. auto. Qed.

(** ** C10 *)
Theorem C10_mac : forall f v, In f registry -> fkind f = KMac -> length v = 6%nat ->
  prints_as (Tlv f v None) (fname f ++ $"=" ++ mac_str v) /\ encodes (fname f ++ $"=" ++ mac_str v) (Tlv f v None).
Proof.
  intros f v Hf Ek Hv. both Ek. split; [exact Hv|]. split; [exact I|]. apply (fits_width f _ _ 6%nat); auto. now rewrite Ek.
Qed.
Theorem C10_masked : forall f v m, In f registry -> fkind f = KMac -> length v = 6%nat -> length m = 6%nat ->
  prints_as (Tlv f v (Some m)) (fname f ++ $"=" ++ mac_str v ++ $"/" ++ mac_str m)
  /\ encodes (fname f ++ $"=" ++ mac_str v ++ $"/" ++ mac_str m) (Tlv f v (Some m)).
Proof.
  intros f v m Hf Ek Hv Hm. both Ek. split; [exact Hv|]. split; [split; [congruence|exact I]|].
  apply (fits_width f _ _ 6%nat); auto; [now rewrite Ek|congruence].
Qed.
Example C10_case : oxm2str [x80; x00; x07; x0c; x01; x02; xab; xcd; x0e; xff; xff; xff; xff; x00; x00; x00] true
    = Ok $"eth_dst=01:02:ab:cd:0e:ff/ff:ff:ff:00:00:00"
  /\ str2oxm $"eth_dst=01:02:ab:cd:0e:ff/ff:ff:ff:00:00:00" true
    = Ok ([x80; x00; x07; x0c; x01; x02; xab; xcd; x0e; xff; xff; xff; xff; x00; x00; x00], 43%nat).
Proof. vm_compute. auto. Qed.

(** ** C11 *)
Theorem C11_ipv4 : forall f v, In f registry -> fkind f = KIPv4 -> length v = 4%nat ->
  prints_as (Tlv f v None) (fname f ++ $"=" ++ ipv4_str v) /\ encodes (fname f ++ $"=" ++ ipv4_str v) (Tlv f v None).
Proof.
  intros f v Hf Ek Hv. both Ek. split; [exact Hv|]. split; [exact I|]. apply (fits_width f _ _ 4%nat); auto. now rewrite Ek.
Qed.
Theorem C11_masked : forall f v m, In f registry -> fkind f = KIPv4 -> length v = 4%nat -> length m = 4%nat ->
  prints_as (Tlv f v (Some m)) (fname f ++ $"=" ++ ipv4_str v ++ $"/" ++ ipv4_str m)
  /\ encodes (fname f ++ $"=" ++ ipv4_str v ++ $"/" ++ ipv4_str m) (Tlv f v (Some m)).
Proof.
  intros f v m Hf Ek Hv Hm. both Ek. split; [exact Hv|]. split; [split; [congruence|exact I]|].
  apply (fits_width f _ _ 4%nat); auto; [now rewrite Ek|congruence].
Qed.
Example C11_case : ipv4_str [x0a; x00; xff; x01] = $"10.0.255.1"
  /\ str2oxm $"arp_tpa=10.0.255.1/255.255.255.0" true
    = Ok ([x80; x00; x2f; x08; x0a; x00; xff; x01; xff; xff; xff; x00], 32%nat).
Proof. vm_compute. auto. Qed.

(** ** C12 *)
Theorem C12_ipv6 : forall f v, In f registry -> fkind f = KIPv6 -> length v = 16%nat ->
  prints_as (Tlv f v None) (fname f ++ $"=" ++ ipv6_str v) /\ encodes (fname f ++ $"=" ++ ipv6_str v) (Tlv f v None).
Proof.
  intros f v Hf Ek Hv. both Ek. split; [exact Hv|]. split; [exact I|]. apply (fits_width f _ _ 16%nat); auto. now rewrite Ek.
Qed.
Theorem C12_masked : forall f v m, In f registry -> fkind f = KIPv6 -> length v = 16%nat -> length m = 16%nat ->
  prints_as (Tlv f v (Some m)) (fname f ++ $"=" ++ ipv6_str v ++ $"/" ++ ipv6_str m)
  /\ encodes (fname f ++ $"=" ++ ipv6_str v ++ $"/" ++ ipv6_str m) (Tlv f v (Some m)).
Proof.
  intros f v m Hf Ek Hv Hm. both Ek. split; [exact Hv|]. split; [split; [congruence|exact I]|].
  apply (fits_width f _ _ 16%nat); auto; [now rewrite Ek|congruence].
Qed.
(** other spellings of the address *)
Theorem C12_spellings : forall f u v u' v', In f registry -> fkind f = KIPv6 -> ipv6_of u v -> ipv6_of u' v' ->
  encodes (fname f ++ $"=" ++ u) (Tlv f v None) /\ encodes (fname f ++ $"=" ++ u ++ $"/" ++ u') (Tlv f v (Some v')).
Proof.
  intros f u v u' v' Hf Ek Hu Hu'. split; apply field_reads; auto using reg_accepted; rewrite Ek; constructor; auto.
Qed.
Example C12_case : ipv6_str [x20; x01; x0d; xb8; x00; x00; x00; x00; x00; x01; x00; x00; x00; x00; x00; x01] = $"2001:db8::1:0:0:1"
  /\ ipv6_str [x00; x00; x00; x00; x00; x00; x00; x00; x00; x00; xff; xff; x0a; x00; x00; x01] = $"::ffff:10.0.0.1"
  /\ str2oxm $"ipv6_src=2001:db8::1:0:0:1" true
    = Ok ([x80; x00; x34; x10; x20; x01; x0d; xb8; x00; x00; x00; x00; x00; x01; x00; x00; x00; x00; x00; x01], 26%nat).
Proof. vm_compute. auto. Qed.

(** ** C13 *)
Definition small_kind (k : kind) : Prop :=
  match k with KPkt | KS8 | KLe _ _ _ | KRate | KChan | KComp _ => True | _ => False end.
Theorem C13_plain : forall f v, In f registry -> small_kind (fkind f) -> Some (length v) = width (fkind f) ->
  prints_as (Tlv f v None) (fname f ++ $"=" ++ value_str (fkind f) v)
  /\ encodes (fname f ++ $"=" ++ value_str (fkind f) v) (Tlv f v None).
Proof.
  intros f v Hf Hk Hw. assert (fits (Tlv f v None)) as F by (apply (fits_width f v None (length v)); auto).
  destruct (fkind f) eqn:Ek; try destruct Hk; cbn [width] in Hw; injection Hw as Hw; both Ek; (split; [assumption|split; [exact I|exact F]]).
Qed.
Theorem C13_masked : forall f v m, In f registry -> match fkind f with KChan | KComp _ => True | _ => False end ->
  Some (length v) = width (fkind f) -> length m = length v ->
  prints_as (Tlv f v (Some m)) (fname f ++ $"=" ++ value_str (fkind f) v ++ $"/" ++ mask_str (fkind f) m)
  /\ encodes (fname f ++ $"=" ++ value_str (fkind f) v ++ $"/" ++ mask_str (fkind f) m) (Tlv f v (Some m)).
Proof.
  intros f v m Hf Hk Hw Hm. assert (fits (Tlv f v (Some m))) as F by (apply (fits_width f v (Some m) (length v)); auto).
  destruct (fkind f) eqn:Ek; try destruct Hk; cbn [width] in Hw; injection Hw as Hw; both Ek; (split; [assumption|split; [split; [assumption|exact I]|exact F]]).
Qed.
Theorem C13_vht : forall f v, In f registry -> fkind f = KVht -> length v = 12%nat -> all_zero (firstn 4 (skipn 4 v)) = false ->
  prints_as (Tlv f v None) (fname f ++ $"=" ++ vht_str v) /\ encodes (fname f ++ $"=" ++ vht_str v) (Tlv f v None).
Proof.
  intros f v Hf Ek Hv Hz. both Ek. split; [auto|]. split; [exact I|]. apply (fits_width f _ _ 12%nat); auto. now rewrite Ek.
Qed.
Theorem C13_vht_masked : forall f v m, In f registry -> fkind f = KVht -> length v = 12%nat -> all_zero (firstn 4 (skipn 4 v)) = false ->
  length m = 12%nat -> all_zero (firstn 4 (skipn 4 m)) = false ->
  prints_as (Tlv f v (Some m)) (fname f ++ $"=" ++ vht_str v ++ $"/" ++ vht_str m)
  /\ encodes (fname f ++ $"=" ++ vht_str v ++ $"/" ++ vht_str m) (Tlv f v (Some m)).
Proof.
  intros f v m Hf Ek Hv Hz Hm Hzm. both Ek. split; [auto|]. split; [split; [congruence|auto]|].
  apply (fits_width f _ _ 12%nat); auto; [now rewrite Ek|congruence].
Qed.
(** little-endian numbers cannot be given a mask although some of them print one *)
Theorem C13_le_mask_refuted : forall f n s ms u v u' v', In f registry -> fkind f = KLe n s ms -> literal u v -> literal u' v' ->
  str2oxm (fname f ++ $"=" ++ u ++ $"/" ++ u') true = Raise TypeError.
Proof. exact le_mask_raises. Qed.
Example C13_case :
  oxm2str (wire (Tlv (Field $"radiotap_ampdu_status" Stratos 36 (KComp [(4%nat, Hex 8); (2%nat, Hex 4); (1%nat, Hex 2); (1%nat, Hex 0)]))
     [x01; x00; x00; x00; x00; x00; x07; x09] None)) true = Ok $"radiotap_ampdu_status=0x00000001::0x07:0x9"
  /\ oxm2str (wire (Tlv (Field $"radiotap_rate" Stratos 18 KRate) [x0b] None)) true = Ok $"radiotap_rate=5.5M"
  /\ oxm2str (wire (Tlv (Field $"radiotap_dbm_antsignal" Stratos 21 KS8) [xc8] None)) true = Ok $"radiotap_dbm_antsignal=-56"
  /\ str2oxm $"radiotap_flags=0x10/0x10" true = Raise TypeError.
Proof. vm_compute. auto. Qed.
(** a VHT value without MCS is printed but cannot be read back *)
Example C13_vht_zero_refuted :
  let t := Tlv (Field $"radiotap_vht" Stratos 37 KVht) [x01; x00; x00; x00; x00; x00; x00; x00; x00; x00; x00; x00] None in
  prints_as t $"radiotap_vht=0x0001::0:::0:0x0000" /\ str2oxm $"radiotap_vht=0x0001::0:::0:0x0000" true = Raise StructError.
Proof. vm_compute. auto. Qed.

(** ** C14 *)
Theorem C14_hex : forall f v, In f registry -> fkind f = KHex -> v <> [] -> fits (Tlv f v None) ->
  prints_as (Tlv f v None) (fname f ++ $"=" ++ hex_string v) /\ encodes (fname f ++ $"=" ++ hex_string v) (Tlv f v None).
Proof. intros f v Hf Ek Hv F. both Ek. split; [exact Hv|split; [exact I|exact F]]. Qed.
Theorem C14_masked : forall f v m, In f registry -> fkind f = KHex -> v <> [] -> length m = length v -> fits (Tlv f v (Some m)) ->
  prints_as (Tlv f v (Some m)) (fname f ++ $"=" ++ hex_string v ++ $"/" ++ hex_string m)
  /\ encodes (fname f ++ $"=" ++ hex_string v ++ $"/" ++ hex_string m) (Tlv f v (Some m)).
Proof. intros f v m Hf Ek Hv Hm F. both Ek. split; [exact Hv|split; [split; [exact Hm|exact I]|exact F]]. Qed.
(** either letter case is read, at any length *)
Theorem C14_read : forall f u v, In f registry -> fkind f = KHex -> hex_of u v -> v <> [] ->
  encodes (fname f ++ $"=" ++ u) (Tlv f v None).
Proof. intros f u v Hf Ek Hu Hv. apply field_reads; auto using reg_accepted. rewrite Ek. now constructor. Qed.
(** value and mask of different lengths are padded with zero bytes to the longer one *)
Theorem C14_padded : forall f u v u' v', In f registry -> fkind f = KHex -> hex_of u v -> hex_of u' v' ->
  encodes (fname f ++ $"=" ++ u ++ $"/" ++ u') (Tlv f (v ++ pad (length v' - length v)) (Some (v' ++ pad (length v - length v')))).
Proof. intros f u v u' v' Hf Ek Hu Hv. apply field_reads; auto using reg_accepted. rewrite Ek. now apply w_hexm. Qed.
Example C14_case : str2oxm $"nxm_tun_metadata63=00FFab/ff" true
    = Ok ([x00; x01; xcf; x06; x00; xff; xab; xff; x00; x00], 28%nat)
  /\ oxm2str [x00; x01; xcf; x06; x00; xff; xab; xff; x00; x00] true = Ok $"nxm_tun_metadata63=00ffab/ff0000".
Proof. vm_compute. auto. Qed.

(** ** C15 *)
Theorem C15_ssid : forall f v, In f registry -> fkind f = KSsid -> v <> [] -> (length v <= 32)%nat -> Forall safe_byte v -> v <> [x2e] ->
  prints_as (Tlv f v None) (fname f ++ $"=" ++ map byte_val v) /\ encodes (fname f ++ $"=" ++ map byte_val v) (Tlv f v None).
Proof.
  intros f v Hf Ek Hn Hl Hs Hd.
  assert (map byte_val (filter (fun b => negb (byte_val b =? 0)) v) = map byte_val v) as E.
  { f_equal. apply filter_all. intros b Hb. apply (proj1 (Forall_forall _ _) Hs) in Hb. unfold safe_byte, safe_char in Hb. lia. }
  assert (prints_as (Tlv f v None) (fname f ++ $"=" ++ value_str KSsid v) /\ encodes (fname f ++ $"=" ++ value_str KSsid v) (Tlv f v None)) as K.
  { both Ek. split; [exists v, 0%nat; rewrite app_nil_r; auto|]. split.
    - intros Hz. destruct (exists_last Hn) as (v0 & b & ->). rewrite last_last in Hz. subst b.
      apply Forall_app in Hs as [_ Hs]. inversion Hs as [|? ? Hb _]. unfold safe_byte, safe_char in Hb. cbn in Hb. lia.
    - unfold fits. cbn [tfield tval tmask mask_bytes]. rewrite app_nil_r. destruct (fclass f); cbn; lia. }
  cbn [value_str] in K. rewrite E in K. exact K.
Qed.
Theorem C15_masked : forall f v k m, In f registry -> fkind f = KSsid -> v <> [] -> (length v <= 32)%nat -> Forall safe_byte v -> v <> [x2e] ->
  length m = (length v + k)%nat -> fits (Tlv f (v ++ pad k) (Some m)) ->
  prints_as (Tlv f (v ++ pad k) (Some m)) (fname f ++ $"=" ++ map byte_val v ++ $"/" ++ hex_string m)
  /\ encodes (fname f ++ $"=" ++ map byte_val v ++ $"/" ++ hex_string m) (Tlv f (v ++ pad k) (Some m)).
Proof.
  intros f v k m Hf Ek Hn Hl Hs Hd Hm F.
  assert (map byte_val (filter (fun b => negb (byte_val b =? 0)) (v ++ pad k)) = map byte_val v) as E.
  { f_equal. rewrite filter_app, filter_all, filter_none, app_nil_r; [reflexivity| |].
    - intros b Hb. apply repeat_spec in Hb. subst b. reflexivity.
    - intros b Hb. apply (proj1 (Forall_forall _ _) Hs) in Hb. unfold safe_byte, safe_char in Hb. lia. }
  assert (prints_as (Tlv f (v ++ pad k) (Some m)) (fname f ++ $"=" ++ value_str KSsid (v ++ pad k) ++ $"/" ++ hex_string m)
    /\ encodes (fname f ++ $"=" ++ value_str KSsid (v ++ pad k) ++ $"/" ++ hex_string m) (Tlv f (v ++ pad k) (Some m))) as K.
  { both Ek. split; [exists v, k; auto|]. split; [|exact F]. split; [|exact I]. rewrite app_length. unfold pad. now rewrite repeat_length. }
  cbn [value_str] in K. rewrite E in K. exact K.
Qed.
Example C15_case : str2oxm $"dot11_ssid=a.B_1/ffff" true
    = Ok (wire (Tlv (Field $"dot11_ssid" Stratos 8 KSsid) [x61; x2e; x42; x5f; x31] (Some [xff; xff; x00; x00; x00])), 21%nat)
  /\ oxm2str (wire (Tlv (Field $"dot11_ssid" Stratos 8 KSsid) [x61; x2e; x42; x5f; x31] (Some [xff; xff; x00; x00; x00]))) true
    = Ok $"dot11_ssid=a.B_1/ffff000000".
Proof. vm_compute. auto. Qed.
(** outside that alphabet: a comma or a blank is printed as it is, and the text is refused;
    an SSID of zero bytes with a mask cannot be printed *)
Example C15_comma_refuted :
  prints_as (Tlv (Field $"dot11_ssid" Stratos 8 KSsid) [x61; x2c; x76; x6c] None) $"dot11_ssid=a,vl"
  /\ str2oxm $"dot11_ssid=a,vl" true = Raise AssertionError
  /\ prints_as (Tlv (Field $"dot11_ssid" Stratos 8 KSsid) [x61; x20; x62] None) $"dot11_ssid=a b"
  /\ str2oxm $"dot11_ssid=a b" true = Raise AssertionError.
Proof. vm_compute. auto. Qed.
Example C15_zero_refuted :
  oxm2str (wire (Tlv (Field $"dot11_ssid" Stratos 8 KSsid) [x00; x00] (Some [xff; xff]))) true = Raise IndexError.
Proof. vm_compute. reflexivity. Qed.

(** ** C16 *)
Theorem C16_print : forall ts, Forall good ts -> Forall printable ts ->
  oxm2str (flat_map wire ts) true = Ok (sepby (chr ",") (map text_of ts)).
Proof. exact oxm2str_prints. Qed.
Theorem C16_each : forall t, good t -> printable t -> oxm2str (wire t) true = Ok (text_of t).
Proof. exact good_prints. Qed.
Theorem C16_parse : forall ts u, written ts u -> str2oxm u true = Ok (flat_map wire ts, length u).
Proof. exact written_reads. Qed.
Theorem C16_roundtrip : forall ts, Forall good ts -> Forall printable ts ->
  exists u, oxm2str (flat_map wire ts) true = Ok u /\ str2oxm u true = Ok (flat_map wire ts, length u).
Proof. intros ts G P. exists (texts ts). split; [now apply oxm2str_prints|apply written_reads; now apply texts_written]. Qed.
(** one at a time, as the flow parser does *)
Theorem C16_first : forall t h u r, item t u -> Forall filler h -> match r with [] => True | c :: _ => sep_char c end ->
  str2oxm (h ++ u ++ r) false = Ok (wire t, (length h + length u)%nat).
Proof. exact item_reads. Qed.
Theorem C16_first_print : forall t r, good t -> printable t -> oxm2str (wire t ++ r) false = Ok (text_of t).
Proof. exact oxm2str_prints1. Qed.
Example C16_case : str2oxm $" ,eth_type = 0x800 ,	ipv4_src=10.0.0.1/255.0.0.0" true
    = Ok ([x80; x00; x0a; x02; x08; x00; x80; x00; x17; x08; x0a; x00; x00; x01; xff; x00; x00; x00], 48%nat)
  /\ oxm2str [x80; x00; x0a; x02; x08; x00; x80; x00; x17; x08; x0a; x00; x00; x01; xff; x00; x00; x00] true
    = Ok $"eth_type=0x800,ipv4_src=10.0.0.1/255.0.0.0".
Proof. vm_compute. auto. Qed.

(** ** C17 *)
Theorem C17_framed : forall u loop b n, str2oxm u loop = Ok (b, n) ->
  (n <= length u)%nat /\ exists ts, b = flat_map wire ts
    /\ Forall (fun t => (tfield t = ct_label_short \/ In (tfield t) registry) /\ sized t) ts.
Proof.
  intros u loop b n H. split; [eapply str2oxm_consumed; eauto|]. destruct (str2oxm_framed u loop b n H) as (ts & Hts & E).
  exists ts. split; [exact E|]. eapply Forall_impl; [|exact Hts]. intros t [[Hf|Hf] Hs]; (split; [|exact Hs]); [left|right]; auto.
Qed.
Example C17_case : str2oxm $"tcp_dst=99999/-1,ipv6_src=::" true
  = Ok (wire (Tlv (Field $"tcp_dst" Basic 14 (KInt 2 Dec None)) [x86; x9f] (Some [xff; xff]))
        ++ wire (Tlv (Field $"ipv6_src" Basic 26 KIPv6) (pad 16) None), 28%nat).
Proof. vm_compute. reflexivity. Qed.

(** ** C18 *)
Theorem C18_unique : NoDup (map fname registry) /\ NoDup (map (fun f => (fclass f, fnum f)) registry).
Proof. exact registry_unique. Qed.
Theorem C18_name_to_id : forall hm fs, Forall (fun f => In f registry) fs ->
  str2oxmid (sepby (chr ",") (map fname fs)) hm = Ok (flat_map (id_wire hm) fs).
Proof. intros hm fs H. apply ids_read. eapply Forall_impl; [|exact H]. exact reg_accepted. Qed.
Theorem C18_id_to_name : forall hm fs, Forall (fun f => In f registry /\ fname f <> $"nxm_ip_frag") fs ->
  oxmid2str (flat_map (id_wire hm) fs) true = Ok (sepby (chr ",") (map fname fs)).
Proof.
  intros hm fs H. rewrite ids_print by (eapply Forall_impl; [|exact H]; intros ? [? ?]; assumption). do 2 f_equal. apply map_ext_in. intros f Hf.
  apply (proj1 (Forall_forall _ _) H) in Hf as [_ Hf]. unfold id_name. destruct (text_eqb (fname f) $"nxm_ip_frag") eqn:E; [|reflexivity].
  apply text_eqb_eq in E. congruence.
Qed.
Theorem C18_frag_refuted : forall hm,
  oxmid2str (id_wire hm (Field $"nxm_ip_frag" Nxm1 26 (KInt 1 Dec (Some Dec)))) true = Ok $"nxm_icmp_type".
Proof. intros []; vm_compute; reflexivity. Qed.
(** a name that is not in the registry is never read as a field; in a list of identities
    it is skipped silently *)
Theorem C18_unknown : forall n h r loop, token n -> solid n -> ~ In n ($"nxm_ct_label" :: map fname registry) -> Forall filler h -> ends r ->
  exists e, str2oxm (h ++ n ++ r) loop = Raise e.
Proof. intros n h r loop Ht Hs Hu Hh Hr. apply unknown_raises; auto. intros ->. exact Hs. Qed.
Example C18_case : str2oxmid $"eth_type,nxm_reg7,radiotap_vht" true
    = Ok [x80; x00; x0b; x04; x00; x01; x0f; x08; xff; xff; x4b; x1c; xff; x00; xe0; x4d]
  /\ oxmid2str [x80; x00; x0b; x04; x00; x01; x0f; x08; xff; xff; x4b; x1c; xff; x00; xe0; x4d] true = Ok $"eth_type,nxm_reg7,radiotap_vht"
  /\ str2oxmid $"eth_type,no_such_field" false = Ok [x80; x00; x0a; x02].
Proof. vm_compute. auto. Qed.

(** ** C19 *)
Theorem C19_truncated : forall f n s ms u v, In f registry -> fkind f = KInt n s ms -> literal u v ->
  encodes (fname f ++ $"=" ++ u) (Tlv f (be n (v mod 256 ^ Z.of_nat n)) None).
Proof. intros f n s ms u v Hf Ek Hu. rewrite be_mod. apply field_reads; auto using reg_accepted. rewrite Ek. now constructor. Qed.
Theorem C19_masks : forall f n s ms u v u' w, In f registry -> fkind f = KInt n s ms -> literal u v -> literal u' w ->
  encodes (fname f ++ $"=" ++ u ++ $"/" ++ u') (Tlv f (be n (v mod 256 ^ Z.of_nat n)) (Some (be n (w mod 256 ^ Z.of_nat n)))).
Proof. intros f n s ms u v u' w Hf Ek Hu Hw. rewrite !be_mod. apply field_reads; auto using reg_accepted. rewrite Ek. now constructor. Qed.
Example C19_case : literal $"-2" (-2) /\ literal $"0x12345" 0x12345 /\
  str2oxm $"eth_type=0x12345,eth_type=-2" true = Ok ([x80; x00; x0a; x02; x23; x45; x80; x00; x0a; x02; xff; xfe], 28%nat).
Proof. split; [exact (dec_literal (-2))|]. split; [|vm_compute; reflexivity]. apply UtilFacts.parseInt_reads. vm_compute. reflexivity. Qed.

(** ** C20 *)
Theorem C20_notations : forall f u u' v, In f registry -> fkind f = KMac -> mac_of u v -> mac_of u' v ->
  encodes (fname f ++ $"=" ++ u) (Tlv f v None) /\ encodes (fname f ++ $"=" ++ u') (Tlv f v None).
Proof. intros f u u' v Hf Ek Hu Hu'. split; apply field_reads; auto using reg_accepted; rewrite Ek; now constructor. Qed.
Theorem C20_masks : forall f u v u' v', In f registry -> fkind f = KMac -> mac_of u v -> mac_of u' v' ->
  encodes (fname f ++ $"=" ++ u ++ $"/" ++ u') (Tlv f v (Some v')).
Proof. intros f u v u' v' Hf Ek Hu Hu'. apply field_reads; auto using reg_accepted. rewrite Ek. now constructor. Qed.
Example C20_case : map (fun u => str2oxm ($"eth_src=" ++ u) true) [$"01ab23CD45ef"; $"01ab.23CD.45ef"; $"01:ab:23:cd:45:EF"; $"01-ab-23-cd-45-ef"]
  = map (fun n => Ok ([x80; x00; x08; x06; x01; xab; x23; xcd; x45; xef], n)) [20; 22; 25; 25]%nat.
Proof. vm_compute. reflexivity. Qed.
(** the "." of the second notation matches any character *)
Example C20_wildcard_refuted : str2oxm $"eth_src=01abX23cdY45ef" true = Ok ([x80; x00; x08; x06; x01; xab; x23; xcd; x45; xef], 22%nat).
Proof. vm_compute. reflexivity. Qed.

(** ** C21 *)
(** an IPv4 prefix length [n] is taken for the address 0.0.0.n: right for 0 only *)
Theorem C21_ipv4_refuted : forall f v n, In f registry -> fkind f = KIPv4 -> length v = 4%nat -> 0 <= n <= 32 ->
  encodes (fname f ++ $"=" ++ ipv4_str v ++ $"/" ++ dec n) (Tlv f v (Some (be 4 n))) /\ (be 4 n = prefix_mask 4 n <-> n = 0).
Proof.
  intros f v n Hf Ek Hv Hn. split; [apply prefix4; auto; lia|]. unfold prefix_mask.
  assert (In n (upto 33)) as Hi by (apply in_upto; lia).
  assert (forallb (fun n => eqb (if list_eq_dec Byte.byte_eq_dec (be 4 n) (be 4 (256 ^ Z.of_nat 4 - 2 ^ (8 * Z.of_nat 4 - n))) then true else false) (n =? 0)) (upto 33) = true)
    as E by (vm_compute; reflexivity).
  pose proof (proj1 (forallb_forall _ _) E n Hi) as K. cbv beta in K. apply eqb_prop in K.
  destruct (list_eq_dec _ _ _) as [e|e]; [split; [intros _; lia|auto]|]. split; [contradiction|intros ->; discriminate].
Qed.
(** an IPv6 prefix length is rejected, except 128 *)
Theorem C21_ipv6_refuted : forall f u v n, In f registry -> fkind f = KIPv6 -> ipv6_of u v -> 0 <= n < 128 ->
  str2oxm (fname f ++ $"=" ++ u ++ $"/" ++ dec n) true = Raise StructError.
Proof. intros. eapply prefix6; eauto. Qed.
Theorem C21_ipv6_128 : forall f u v, In f registry -> fkind f = KIPv6 -> ipv6_of u v ->
  encodes (fname f ++ $"=" ++ u ++ $"/128") (Tlv f v (Some (prefix_mask 16 128))).
Proof. intros. now apply prefix6_full. Qed.
Theorem C21_ipv4_0 : forall f v, In f registry -> fkind f = KIPv4 -> length v = 4%nat ->
  encodes (fname f ++ $"=" ++ ipv4_str v ++ $"/0") (Tlv f v (Some (prefix_mask 4 0))).
Proof. intros f v Hf Ek Hv. exact (prefix4 f v 0 true Hf Ek Hv ltac:(lia)). Qed.
Example C21_case : str2oxm $"ipv4_src=192.168.1.0/24" true
    = Ok ([x80; x00; x17; x08; xc0; xa8; x01; x00; x00; x00; x00; x18], 23%nat)
  /\ prefix_mask 4 24 = [xff; xff; xff; x00].
Proof. vm_compute. auto. Qed.

Print Assumptions C08_plain.
Print Assumptions C13_vht_masked.
Print Assumptions C15_masked.
Print Assumptions C16_parse.
Print Assumptions C17_framed.
Print Assumptions C18_id_to_name.
Print Assumptions C21_ipv4_refuted.
