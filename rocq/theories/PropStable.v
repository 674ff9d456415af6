(** Properties C54 and C55: accepted texts have a meaning, and printing one keeps it
    (oxm.py, ofp4.py, nx.py). *)
From Coq Require Import Strings.Ascii.
From Verif Require Import Base PyNum Util PyLib OxmCodec OxmTables Oxm Nx Ofp4 Spec SpecOxm SpecOfp.
From Verif Require Import BaseFacts UtilFacts NumFacts OxmRead OxmPrint OxmFacts OxmFrame OxmMore.
From Verif Require Import ActFrame ActDenote FlowRead FlowMod FlowText FlowFrame FlowDenote GroupText GroupDenote Steady.

(** ** C54 *)
(** an accepted flow text is a flow in range, and the message is its wire form *)
Theorem C54_flow : forall s cmd xid m, str2mod s cmd xid = Ok m -> exists ps x ts,
  accepted AtEntry s ps /\ in_bytes 1 cmd /\ in_bytes 4 xid /\ fixed_ok x /\ defaulted (names_set ps) (defaults cmd) x /\ named_flags (x_flags x)
  /\ match_parts ps = flat_map wire ts /\ Forall known_tlv ts /\ Z.of_nat (length m) <= 65535
  /\ (regular ps -> exists is, instr_parts None ps = instrs_wire is /\ Forall instr_known is /\ m = flow_wire cmd xid x ts is
       /\ (no_short is -> flow_ok cmd xid x ts is)).
Proof. exact mod_denotes. Qed.
(** without instructions nothing is left to assume *)
Theorem C54_match_only : forall s cmd xid m, str2mod s cmd xid = Ok m -> (forall a b, s <> a ++ $"@" ++ b) ->
  exists x ts, flow_ok cmd xid x ts [] /\ Forall known_tlv ts /\ named_flags (x_flags x) /\ m = flow_wire cmd xid x ts [].
Proof.
  intros s cmd xid m H Hs. destruct (mod_denotes _ _ _ _ H) as (ps & x & ts & A1 & A2 & A3 & A4 & A5 & A6 & A7 & A8 & A9 & A10).
  assert (N : forall p, In p ps -> match p with PSet _ | PMatch _ _ => True | _ => False end).
  { clear -A1 Hs. remember AtEntry as w eqn:Ew.
    assert (K : forall a r, a ++ r = s -> (forall x y, r <> x ++ $"@" ++ y)) by (intros a r <- x y ->; apply (Hs (a ++ x) y); now rewrite app_assoc).
    assert (G : forall r, (forall x y, r <> x ++ $"@" ++ y) -> forall a b, a ++ b = r -> (forall x y, b <> x ++ $"@" ++ y))
      by (intros r Hr a b <- x y ->; apply (Hr (a ++ x) y); now rewrite app_assoc).
    clear K. induction A1; try discriminate Ew.
    - intros p [].
    - intros p [<-|Hp]; [exact I|]. apply IHA1; auto. eapply (G _ Hs (h ++ name ++ x)). now rewrite <- !app_assoc.
    - intros p [<-|Hp]; [exact I|]. apply IHA1; auto. eapply (G _ Hs (h ++ name ++ x)). now rewrite <- !app_assoc.
    - exfalso. assert (Hnm : exists n, nm = $"@" ++ n) by (match goal with Hn : instr_name _ _ |- _ => destruct Hn as [? ? Hsp|? ? ? Hsp|? Hsp|?] end;
        try (destruct Hsp as [-> | ->]); eexists; reflexivity).
      destruct Hnm as [n ->]. apply (Hs h (n ++ x ++ r)). now rewrite <- !app_assoc.
    - exfalso. assert (Hnm : exists n, nm = $"@" ++ n) by (match goal with Hn : acts_name _ _ |- _ => destruct Hn as [? Hsp|? Hsp] end;
        destruct Hsp as [-> | ->]; eexists; reflexivity).
      destruct Hnm as [n ->]. apply (Hs h (n ++ r)). now rewrite <- !app_assoc. }
  assert (R : regular ps) by (intros n b Hi; destruct (N _ Hi)).
  destruct (A10 R) as (is & E & Hk & Em & Ho).
  assert (En : instr_parts None ps = []).
  { clear -N. induction ps as [|p ps IH]; [reflexivity|]. pose proof (N p (or_introl eq_refl)). destruct p; try contradiction; cbn [instr_parts]; apply IH; intros q Hq; apply N; now right. }
  assert (is = []) as ->.
  { rewrite En in E. destruct is as [|i is]; [reflexivity|]. exfalso. cbn [instrs_wire flat_map] in E. destruct i; discriminate E. }
  exists x, ts. split; [apply Ho; intros i a []|]. auto.
Qed.
Theorem C54_group : forall s cmd xid m, str2group s cmd xid = Ok m ->
  (exists b, irregular b /\ contains m b)
  \/ exists t id bs, m = group_wire cmd xid t id bs /\ Forall bucket_known bs /\ (no_short_in bs -> group_ok cmd xid t id bs).
Proof. exact group_denotes. Qed.
Example C54_case :
  str2mod $"  vlan_vid = 0x1005 ,,cookie=7, no_pkt_counts,@write set_queue(3),output = 2 @goto=1" 0 9
    = Ok (flow_wire 0 9 (Fixed 7 0 0 0x8000 0 0 0xffffffff 0 0 8) [Tlv (Field $"vlan_vid" Basic 6 (KInt 2 (Hex 0) (Some (Hex 0)))) [x10; x05] None] [WriteActions [SetQueue 3; Output 2 0xffff]; Goto 1])
  /\ str2group $"ff, group = 0x10 @bucket watch_port=1 output=1" 0 9
    = Ok (group_wire 0 9 GFF 16 [Bucket 0 1 0xffffffff [Output 1 0xffff]]).
Proof. vm_compute. auto. Qed.
(** texts with an irregular action: a 4-byte tunnel number under the number of the 8-byte
    action, no action in range has that form *)
Lemma not_tunnel64 a : act_ok a -> act_wire a <> nx_act 9 (be 4 5).
Proof.
  intros _ E. assert (Ht : firstn 2 (act_wire a) = firstn 2 (nx_act 9 (be 4 5)) /\ firstn 2 (skipn 8 (act_wire a)) = firstn 2 (skipn 8 (nx_act 9 (be 4 5)))
    /\ length (act_wire a) = length (nx_act 9 (be 4 5))) by now rewrite E.
  clear E. destruct Ht as (H1 & H2 & H3). destruct a; try (destruct k); try (destruct v2); cbn in H1, H2, H3; discriminate.
Qed.
Theorem C54_tunnel_refuted : exists m, str2mod $"@apply,set_tunnel64(5)" 0 1 = Ok m
  /\ m = firstn 64 m ++ nx_act 9 (be 4 5) /\ forall a, act_ok a -> act_wire a <> nx_act 9 (be 4 5).
Proof. eexists. split; [vm_compute; reflexivity|]. split; [vm_compute; reflexivity|]. exact not_tunnel64. Qed.
(** a bundle without its slave type, and set_field without a field *)
Theorem C54_bundle_refuted : exists m, str2mod $"@apply,bundle(eth_src,0,hrw,foo,slaves(1))" 0 1 = Ok m
  /\ m = firstn 64 m ++ nx_act 12 (be 2 1 ++ be 2 0 ++ be 2 0 ++ be 2 1 ++ pad 10 ++ be 2 1).
Proof. eexists. split; vm_compute; reflexivity. Qed.
Theorem C54_empty_refuted : exists m, str2mod $"@apply,set_dot11_ssid=" 0 1 = Ok m /\ m = firstn 64 m ++ padded_act 25 [].
Proof. eexists. split; vm_compute; reflexivity. Qed.

(** ** C55 *)
(** a match text, printed and read again, gives the same bytes *)
Theorem C55_match : forall u b n, str2oxm u true = Ok (b, n) -> exists ts, b = flat_map wire ts /\ Forall known_tlv ts
  /\ (Forall steady ts -> exists t, oxm2str b true = Ok t /\ str2oxm t true = Ok (b, length t)).
Proof.
  intros u b n H. apply str2oxm_framed in H as (ts & Hts & ->). exists ts. split; [reflexivity|]. split.
  { eapply Forall_impl; [|exact Hts]. intros t [[Hf|Hf] Hs]; split; auto. }
  intros Hst. destruct (steady_all ts Hst) as [G P]; [eapply Forall_impl; [|exact Hts]; now intros t [_ Hs]|].
  exists (texts ts). split; [now apply oxm2str_prints|apply written_reads; now apply texts_written].
Qed.
(** a flow text, printed and read again, gives the same message *)
Theorem C55_flow : forall s cmd xid m, str2mod s cmd xid = Ok m -> exists ps ts,
  accepted AtEntry s ps /\ match_parts ps = flat_map wire ts
  /\ (regular ps -> exists is, instr_parts None ps = instrs_wire is
       /\ (Forall steady ts -> no_short is -> Forall instr_printable is ->
           exists t, mod2str m = Ok t /\ str2mod t cmd xid = Ok m)).
Proof.
  intros s cmd xid m H. destruct (mod_denotes _ _ _ _ H) as (ps & x & ts & A1 & A2 & A3 & A4 & A5 & A6 & A7 & A8 & A9 & A10).
  exists ps, ts. split; [exact A1|]. split; [exact A7|]. intros Hr. destruct (A10 Hr) as (is & E & Hk & Em & Ho). exists is. split; [exact E|].
  intros Hst Hn Hp. destruct (steady_all ts Hst) as [G P]; [eapply Forall_impl; [|exact A8]; now intros t [_ Hs]|].
  assert (Hg : good_flow cmd xid x ts is) by (split; [auto|split; [auto|split; auto]]).
  exists (flow_text cmd x ts is). rewrite Em. split; [now apply flow_prints|now apply flow_text_encodes].
Qed.
(** in particular for a text without instructions *)
Theorem C55_match_only : forall s cmd xid m, str2mod s cmd xid = Ok m -> (forall a b, s <> a ++ $"@" ++ b) ->
  exists x ts, m = flow_wire cmd xid x ts [] /\ (Forall steady ts -> exists t, mod2str m = Ok t /\ str2mod t cmd xid = Ok m).
Proof.
  intros s cmd xid m H Hs. destruct (C54_match_only _ _ _ _ H Hs) as (x & ts & Ho & Hk & Hf & ->). exists x, ts. split; [reflexivity|].
  intros Hst. destruct (steady_all ts Hst) as [G P]; [eapply Forall_impl; [|exact Hk]; now intros t [_ K]|].
  assert (Hg : good_flow cmd xid x ts []) by (split; [auto|split; [auto|split; auto]]).
  exists (flow_text cmd x ts []). split; [now apply flow_prints|now apply flow_text_encodes].
Qed.
Theorem C55_group : forall s cmd xid m, str2group s cmd xid = Ok m ->
  (exists b, irregular b /\ contains m b)
  \/ exists t id bs, m = group_wire cmd xid t id bs
     /\ (no_short_in bs -> acts_last bs -> Forall (bucket_printable t) bs -> Forall (fun b => bucket_texts t b <> []) bs ->
         exists u, group2str m = Ok u /\ str2group u cmd xid = Ok m).
Proof.
  intros s cmd xid m H. destruct (group_denotes _ _ _ _ H) as [Hi|(t & id & bs & Em & Hk & Ho)]; [auto|]. right. exists t, id, bs. split; [exact Em|].
  intros Hn Hl Hp Ht. assert (Hg : good_group cmd xid t id bs).
  { split; [auto|]. destruct (Ho Hn) as (_ & _ & _ & Hb & _). clear -Hb Hp Ht. induction bs; [constructor|]. inversion Hb; inversion Hp; inversion Ht; subst. constructor; auto. split; auto. }
  exists (group_text t id bs). rewrite Em. split; [now apply good_group_prints|now apply group_text_encodes].
Qed.
(** two flows with the same text are the same *)
Theorem C55_injective : forall cmd xid x ts is x' ts' is', good_flow cmd xid x ts is -> named_flags (x_flags x) ->
  good_flow cmd xid x' ts' is' -> named_flags (x_flags x') ->
  mod2str (flow_wire cmd xid x ts is) = mod2str (flow_wire cmd xid x' ts' is') -> flow_wire cmd xid x ts is = flow_wire cmd xid x' ts' is'.
Proof.
  intros cmd xid x ts is x' ts' is' G F G' F' E. rewrite !flow_prints in E by auto. injection E as E.
  pose proof (flow_text_encodes cmd xid x ts is G F) as K. rewrite E in K. rewrite flow_text_encodes in K by auto. congruence.
Qed.
Example C55_case : let s := $"  vlan_vid = 0x1005 ,,cookie=7, no_pkt_counts,@write set_queue(3),output = 2 @goto=1" in
  (m <- str2mod s 0 9 ;; mod2str m) = Ok $"cookie=0x7,no_pkt_counts,vlan_vid=0x1005,@write,set_queue=3,output=2,@goto=1"
  /\ str2mod $"cookie=0x7,no_pkt_counts,vlan_vid=0x1005,@write,set_queue=3,output=2,@goto=1" 0 9 = str2mod s 0 9
  /\ (m <- str2group $"ff, group = 0x10 @bucket watch_port=1 output=1" 0 9 ;; group2str m) = Ok $"group=16,ff,@bucket,watch_port=1,output=1".
Proof. vm_compute. auto. Qed.
(** a field that is not steady: printed without its value, and then not read *)
Theorem C55_register_refuted : exists m, str2mod $"nxm_reg0=5" 0 1 = Ok m /\ mod2str m = Ok $"nxm_reg0" /\ str2mod $"nxm_reg0" 0 1 = Raise AssertionError.
Proof. eexists. split; [vm_compute; reflexivity|]. split; vm_compute; reflexivity. Qed.

Print Assumptions C54_flow.
Print Assumptions C54_match_only.
Print Assumptions C54_group.
Print Assumptions C54_tunnel_refuted.
Print Assumptions C55_match.
Print Assumptions C55_flow.
Print Assumptions C55_match_only.
Print Assumptions C55_group.
Print Assumptions C55_injective.
