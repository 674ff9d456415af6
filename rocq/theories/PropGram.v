(** Property C57: what a match text may look like and what it means, without exception
    (oxm.py, util.py). *)
From Coq Require Import Strings.Ascii.
From Verif Require Import Base PyNum Util PyLib OxmCodec OxmTables Oxm Spec SpecOxm SpecText.
From Verif Require Import BaseFacts UtilFacts NumFacts OxmRead OxmPrint OxmFacts OxmFrame TermFacts GramLib OxmGram OxmExact.

(** ** C57 *)
(** every accepted text is in the grammar of SpecText, and the bytes are what it means there *)
Theorem C57_grammar : forall u b n, str2oxm u true = Ok (b, n) ->
  exists ts r, match_list notation ts u r /\ b = flat_map wire ts /\ n = (length u - length r)%nat.
Proof. exact str2oxm_grammar. Qed.
(** one value *)
Theorem C57_value : forall f p b, In f accepted_fields -> cutting p -> run_s2b (s2b_of f) (AText p) = Ok (b, length p) ->
  exists v m, b = wire (Tlv f v m) /\ notation (fkind f) p v m.
Proof. exact noted_field. Qed.
(** every text of the grammar is read, as the grammar says *)
Theorem C57_complete : forall ts u r, match_list notation ts u r -> str2oxm u true = Ok (flat_map wire ts, (length u - length r)%nat).
Proof. exact match_list_read. Qed.
(** so the accepted texts are exactly those of the grammar *)
Theorem C57_exactly : forall u b n, str2oxm u true = Ok (b, n) <->
  exists ts r, match_list notation ts u r /\ b = flat_map wire ts /\ n = (length u - length r)%nat.
Proof. intros u b n. split; [apply str2oxm_grammar|]. intros (ts & r & M & -> & ->). now apply match_list_read. Qed.
(** everything else raises an exception *)
Theorem C57_refused : forall u, (forall ts r, ~ match_list notation ts u r) -> exists e, str2oxm u true = Raise e.
Proof.
  intros u Hu. destruct (str2oxm u true) as [[b n]|e|] eqn:E; [|eauto|].
  - apply str2oxm_grammar in E as (ts & r & M & _). now destruct (Hu ts r).
  - now apply str2oxm_total in E.
Qed.
(** and the grammar is unambiguous *)
Theorem C57_unambiguous : forall ts ts' u r r', match_list notation ts u r -> match_list notation ts' u r' -> flat_map wire ts = flat_map wire ts' /\ r = r'.
Proof.
  intros ts ts' u r r' H H'. pose proof (match_list_reads _ _ _ H (length u) (le_n _)) as E. rewrite (match_list_reads _ _ _ H' (length u) (le_n _)) in E.
  injection E as -> ->. auto.
Qed.
(** something is left unread only behind an empty value of a byte string or SSID *)
Theorem C57_unread : forall u b n, str2oxm u true = Ok (b, n) -> n <> length u ->
  exists pre f a g r, u = pre ++ fname f ++ a ++ $"=" ++ g ++ r /\ n = (length u - length r)%nat /\ (fkind f = KHex \/ fkind f = KSsid) /\ gap_eq a /\ Forall blank g /\ cut_off r.
Proof.
  intros u b n H Hn. destruct (str2oxm_grammar u b n H) as (ts & r & M & _ & ->). clear H.
  assert (r <> []) as Hr by (intros ->; apply Hn; cbn; lia). clear Hn b.
  assert (exists pre f a g, u = pre ++ fname f ++ a ++ $"=" ++ g ++ r /\ (fkind f = KHex \/ fkind f = KSsid) /\ gap_eq a /\ Forall blank g /\ cut_off r) as (pre & f & a & g & E & K).
  { induction M as [|f h a g p v m r ts u r' _ _ _ _ _ _ -> M IH|f h a g r u Hf Hh Ha Hg He Hk ->]; [now destruct Hr| |exists h, f, a, g; auto].
    destruct (IH Hr) as (pre & f' & a' & g' & E & K). exists (h ++ fname f ++ a ++ $"=" ++ g ++ p ++ pre), f', a', g'. split; [|exact K]. rewrite E at 1. now rewrite <- !app_assoc. }
  exists pre, f, a, g, r. tauto.
Qed.
Example C57_case :
  str2oxm $" ipv4_src=0x7f.1, eth_dst = 0123x4567y89ab/ff-ff-ff-00-00-00,,ipv6_src=1::2/ff00::, radiotap_rate=5500K" true
    = Ok (flat_map wire [Tlv (Field $"ipv4_src" Basic 11 KIPv4) [x7f; x00; x00; x01] None;
                         Tlv (Field $"eth_dst" Basic 3 KMac) [x01; x23; x45; x67; x89; xab] (Some [xff; xff; xff; x00; x00; x00]);
                         Tlv (Field $"ipv6_src" Basic 26 KIPv6) (be 16 (2 ^ 112 + 2)) (Some (be 16 (0xff00 * 2 ^ 112)));
                         Tlv (Field $"radiotap_rate" Stratos 18 KRate) [x0b] None], 103%nat)
  /\ str2oxm $"ipv4_src=1.2.3.4.5" true = Raise OSError
  /\ str2oxm $"eth_dst=0:1:2:3:4:5" true = Raise ValueError.
Proof. vm_compute. auto. Qed.
Example C57_ssid_case :
  str2oxm $"dot11_ssid=(a=2cb==c=x)" true = Ok (wire (Tlv (Field $"dot11_ssid" Stratos 8 KSsid) [x28; x61; x2c; x62; x3d; x63; x3d; x78; x29] None), 23%nat)
  /\ qp $"(a=2cb==c=x)" [x28; x61; x2c; x62; x3d; x63; x3d; x78; x29]
  /\ str2oxm $"dot11_ssid=a=2cb" true = Raise AssertionError.
Proof. split; [vm_compute; reflexivity|]. split; [now apply a2b_qp_inv|vm_compute; reflexivity]. Qed.
(** Python's integers: digits of other scripts and underscores are read, a blank that is no C blank is not *)
Example C57_digits_case :
  let enc := fun u => '(b, _) <- str2oxm u true ;; Ok b in
  enc ($"ipv6_src=::1/" ++ [0xff11; 0x662; 95; 0x1d7f4]) = enc $"ipv6_src=::1/128"
  /\ enc ($"ipv6_src=::1/" ++ [0xa0] ++ $"+128") = enc $"ipv6_src=::1/128" /\ match enc $"ipv6_src=::1/128" with Ok b => length b = 36%nat | _ => False end
  /\ str2oxm ($"ipv6_src=::1/" ++ [0x1c] ++ $"128") true = Raise ValueError
  /\ says_128 [0xff11; 0x662; 95; 0x1d7f4].
Proof.
  intros enc. do 4 (split; [vm_compute; reflexivity|]).
  exists [], [], [0xff11; 0x662; 95; 0x1d7f4], $"128", []. repeat split; auto.
  assert (D : forall c d z, In z decimal_zeros -> c - z = d - 48 -> digit_in 10 d -> decimal_digit c d) by (intros c d z Hz E Hd; split; [auto|exists z; auto]).
  change $"128" with [49; 50; 56]. change 95 with (chr "_").
  apply us_next; [apply (D _ _ 0xff10); [vm_compute; tauto|reflexivity|now exists 1]|].
  apply us_under; [apply (D _ _ 0x660); [vm_compute; tauto|reflexivity|now exists 2]|].
  apply us_one. apply (D _ _ 0x1d7ec); [vm_compute; tauto|reflexivity|now exists 8].
Qed.
(** an empty SSID silently drops what follows *)
Theorem C57_all_read_refuted :
  str2oxm $"dot11_ssid=,in_port=1" true = Ok ([], 11%nat).
Proof. vm_compute. reflexivity. Qed.
(** what follows a number in radiotap_vht, and a third part of an SSID, is ignored *)
Theorem C57_junk_refuted :
  (exists b, str2oxm $"radiotap_vht=1:2:3:00000000:5:6:7junk" true = Ok (b, 37%nat) /\ str2oxm $"radiotap_vht=1:2:3:00000000:5:6:7" true = Ok (b, 33%nat))
  /\ (exists b, str2oxm $"dot11_ssid=a/ff/junk" true = Ok (b, 20%nat) /\ str2oxm $"dot11_ssid=a/ff" true = Ok (b, 15%nat)).
Proof. split; eexists; vm_compute; split; reflexivity. Qed.
Print Assumptions C57_grammar.
Print Assumptions C57_value.
Print Assumptions C57_unread.
Print Assumptions C57_complete.
Print Assumptions C57_exactly.
Print Assumptions C57_unambiguous.
Print Assumptions C57_refused.
Print Assumptions C57_digits_case.
