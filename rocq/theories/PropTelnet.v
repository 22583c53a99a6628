(** * C40-C44: properties of telnet sessions *)

From Verif Require Import Base TerminalModel TelnetModel TelnetSpec TelnetProofs.
Open Scope nat_scope.
Open Scope list_scope.

(** C40: however the bytes are cut into chunks, the keys and the bytes sent in reply are
    the same. *)
Theorem C40_segmentation : forall chunks chunks' d, concat chunks = concat chunks' -> receives chunks d = receives chunks' d.
Proof. intros chunks chunks' d H. rewrite !receives_concat, H. reflexivity. Qed.
Print Assumptions C40_segmentation.
Example C40_nonvacuous : exists chunks chunks', concat chunks = concat chunks' /\ chunks <> chunks' /\
  receives chunks dev_init = (mkDev telnet_init K1, ([KAscii "a"; KUp], [[IAC; DONT; "024"]]))%char.
Proof.
  exists [[FF; "251"]; ["024"; "a"; "027"]; ["["; "A"]]%char, [[FF]; ["251"; "024"; "a"]; ["027"; "["]; []; ["A"]]%char.
  split; [reflexivity|]. split; [discriminate|]. vm_compute. reflexivity.
Qed.

(** C41: of a well-formed stream exactly the data reaches the key decoder. *)
Theorem C41_data : forall is chunks, Forall item_ok is -> concat chunks = wire is ->
  bytes_of (snd (reads chunks telnet_init)) = data_of is /\ fst (reads chunks telnet_init) = telnet_init.
Proof. intros is chunks H Hc. rewrite reads_concat, Hc. change telnet_init with idle. rewrite items_out by exact H. split; [apply bytes_items|reflexivity]. Qed.
Print Assumptions C41_data.
(** So the keys are those of the data alone. *)
Theorem C41_keys : forall is chunks, Forall item_ok is -> concat chunks = wire is ->
  fst (snd (receives chunks dev_init)) = snd (outputs (data_of is) K1).
Proof.
  intros is chunks H Hc. rewrite receives_concat, Hc. unfold receive. cbn [d_tel d_step dev_init]. change telnet_init with idle. rewrite items_out by exact H.
  rewrite bytes_items. destruct (outputs (data_of is) K1). reflexivity.
Qed.
Print Assumptions C41_keys.
Definition demo_items : list item :=
  [IData "a"; INeg Do "001"; ICommand "241"; ISub ["031"; "255"; "240"; "b"]; IData "255"; INeg Will "024"; INeg Wont "001"; INeg Dont "003"; INeg Will "031"; IData "c"]%char.
Example C41_nonvacuous : Forall item_ok demo_items /\ data_of demo_items = ["a"; "255"; "c"]%char.
Proof. split; [repeat (apply Forall_cons; [cbn; try lia; try discriminate; exact I|]); apply Forall_nil|reflexivity]. Qed.

(** Commands up to 240 (SE) between the verb of a negotiation and its option change
    nothing: the option is still taken as such, and answered. *)
Theorem C41_interrupted : forall v opt cs, Forall (fun c => (byte_of c <= 240)%N) cs -> opt <> FF ->
  exists t o, reads [[FF; verb_code v] ++ commands cs ++ [opt]] telnet_init = (t, o) /\ t = telnet_init /\ bytes_of o = [] /\
    sent_of o = map (fun q => encode (reply q)) (requests [INeg v opt]).
Proof.
  intros v opt cs Hc Ho. destruct (negotiation_interrupted v opt cs Hc Ho) as (o & H1 & H2 & H3). exists telnet_init, o. rewrite reads_concat. cbn [concat]. rewrite app_nil_r. split; [exact H1|]. split; [reflexivity|]. split; [exact H2|].
  rewrite H3, <- sent_items. cbn [flat_map]. rewrite app_nil_r. reflexivity.
Qed.
Print Assumptions C41_interrupted.
Example C41_interrupted_nonvacuous : Forall (fun c => (byte_of c <= 240)%N) ["240"; "001"]%char /\ "a"%char <> FF /\
  reads [[FF; verb_code Will] ++ commands ["240"; "001"]%char ++ ["a"%char]] telnet_init = (telnet_init, [Diag; Send [IAC; DONT; "a"%char]]).
Proof. split; [repeat (constructor; [vm_compute; discriminate|]); constructor|]. split; [discriminate|vm_compute; reflexivity]. Qed.
Print Assumptions C41_interrupted_nonvacuous.
(** Other commands (241 to 249, for example NOP) end it: what follows is taken as typed. *)
Theorem C41_nop_refuted : exists b, b = [FF; verb_code Will; FF; "241"; "a"]%char /\ bytes_of (snd (reads [b] telnet_init)) = lit "a" /\
  bytes_of (snd (reads [[FF; "250"; "031"; FF; "241"; "a"; FF; "240"]%char] telnet_init)) = lit "a".
Proof. eexists. split; [reflexivity|]. split; vm_compute; reflexivity. Qed.
Print Assumptions C41_nop_refuted.

(** C42: each DO and WILL gets exactly one reply, in order; WONT and DONT none; the reply
    is a command for that option, unless the option is 10. *)
Theorem C42_replies : forall is chunks, Forall item_ok is -> concat chunks = wire is ->
  Forall (fun q => snd q <> "010"%char) (requests is) ->
  Forall2 (fun b q => answers b (snd q)) (sent_of (snd (reads chunks telnet_init))) (requests is).
Proof.
  intros is chunks H Hc Ho. rewrite reads_concat, Hc. change telnet_init with idle. rewrite items_out by exact H. cbn [snd]. rewrite sent_items.
  assert (Hv : Forall (fun q => In (fst q) [Will; Do]) (requests is)).
  { clear. induction is as [|i is IH]; [constructor|]. unfold requests. cbn [flat_map]. apply Forall_app. split; [|exact IH].
    destruct i as [| |[]|]; repeat constructor; cbn; tauto. }
  induction (requests is) as [|q qs IH]; [constructor|]. inversion Ho; inversion Hv; subst. constructor; [apply reply_answers; assumption|apply IH; assumption].
Qed.
Print Assumptions C42_replies.
(** The replies, exactly. *)
Theorem C42_table : forall is chunks, Forall item_ok is -> concat chunks = wire is ->
  sent_of (snd (reads chunks telnet_init)) = map (fun q => encode (reply q)) (requests is).
Proof. intros is chunks H Hc. rewrite reads_concat, Hc. change telnet_init with idle. rewrite items_out by exact H. apply sent_items. Qed.
Print Assumptions C42_table.
Example C42_nonvacuous : requests demo_items = [(Do, "001"); (Will, "024"); (Will, "031")]%char /\
  sent_of (snd (reads [wire demo_items] telnet_init)) = [[IAC; DO; "001"]; [IAC; DONT; "024"]; [IAC; DO; "031"]]%char.
Proof. split; vm_compute; reflexivity. Qed.
(** The reply about option 10 passes the text encoder and has four bytes. *)
Theorem C42_option10_refuted : exists i, item_ok i /\ sent_of (snd (reads [wire [i]] telnet_init)) = [[IAC; DONT; "013"; "010"]]%char /\
  ~ answers [IAC; DONT; "013"; "010"]%char "010"%char.
Proof.
  exists (INeg Will "010"). split; [discriminate|]. split; [vm_compute; reflexivity|]. intros (v & H). discriminate.
Qed.
Print Assumptions C42_option10_refuted.
(** Two peers running this code would answer each other for ever: some commands are
    their own reply. *)
Theorem C42_loop_refuted : exists i, item_ok i /\ sent_of (snd (reads [wire [i]] telnet_init)) = [wire [i]].
Proof. exists (INeg Do "001"). split; [discriminate|vm_compute; reflexivity]. Qed.
Print Assumptions C42_loop_refuted.

(** C43: however the text is cut into writes, a client recovers it, if it has no byte 255. *)
Theorem C43_output : forall ws, ~ In FF (flat_map written ws) -> client (wire_bytes ws) = flat_map written ws.
Proof. intros ws H. rewrite wire_bytes_encode. exact (client_encode _ H). Qed.
Print Assumptions C43_output.
Theorem C43_cutting : forall ws ws', flat_map written ws = flat_map written ws' -> wire_bytes ws = wire_bytes ws'.
Proof. intros ws ws' H. rewrite !wire_bytes_encode, H. reflexivity. Qed.
Print Assumptions C43_cutting.
(** At once, or byte by byte. *)
Theorem C43_bytes : forall s, ~ In FF s -> client (wire_bytes [WString s]) = s /\ client (wire_bytes (map WChar s)) = s.
Proof.
  intros s H.
  assert (A : flat_map written (map WChar s) = s) by (induction s as [|c s IH]; [reflexivity|]; cbn [map flat_map written app]; f_equal; apply IH; intro Q; apply H; right; exact Q).
  assert (B : flat_map written [WString s] = s) by apply app_nil_r.
  split; rewrite wire_bytes_encode, client_encode; rewrite ?A, ?B; auto.
Qed.
Print Assumptions C43_bytes.
Example C43_nonvacuous : exists ws, ~ In FF (flat_map written ws) /\ flat_map written ws = lit "ab" ++ ["013"; "010"; "010"; "c"]%char /\
  wire_bytes ws = lit "ab" ++ ["013"; "013"; "010"; "013"; "010"; "c"]%char.
Proof. exists [WString (lit "ab"); WChar "013"; WString ["010"; "010"]; WChar "c"]%char. split; [cbn; intuition discriminate|]. split; reflexivity. Qed.
(** Byte 255 is not doubled. *)
Theorem C43_ff_refuted : exists s, client (wire_bytes [WString s]) <> s.
Proof. exists [FF; FF]. vm_compute. discriminate. Qed.
Print Assumptions C43_ff_refuted.

(** C44: keys are decoded to their events, whatever sequences precede them. *)
Theorem C44_keys : forall p ts, fst (outputs p K1) = K1 -> Forall typed_ok ts ->
  snd (outputs (p ++ flat_map telnet_bytes ts) K1) = snd (outputs p K1) ++ map key_of ts.
Proof.
  intros p ts Hp Ht. rewrite outputs_app. destruct (outputs p K1) as [s k]. cbn [fst] in Hp. subst s. rewrite typed_keys by exact Ht. reflexivity.
Qed.
Print Assumptions C44_keys.
(** After any bytes at all, three bytes other than ESC and CR are enough. *)
Theorem C44_resync : forall p c1 c2 c3 ts, Forall (fun c => c <> "027"%char /\ c <> "013"%char) [c1; c2; c3] -> Forall typed_ok ts ->
  snd (outputs (p ++ [c1; c2; c3] ++ flat_map telnet_bytes ts) K1) = snd (outputs (p ++ [c1; c2; c3]) K1) ++ map key_of ts.
Proof.
  intros p c1 c2 c3 ts Hc Ht. rewrite app_assoc. apply C44_keys; [|exact Ht]. rewrite outputs_app. destruct (outputs p K1) as [s k].
  pose proof (resync s c1 c2 c3 Hc) as H. destruct (outputs [c1; c2; c3] s) as [s' k']. exact H.
Qed.
Print Assumptions C44_resync.
(** Every sequence of bytes consists of sequences that are keys and the beginning of
    another one, *)
Theorem C44_total : forall bytes, exists qs r, bytes = flat_map fst qs ++ r /\ Forall (fun q => telnet_seq (fst q) (snd q)) qs /\ telnet_part r.
Proof. intros bytes. destruct (outputs_seq bytes K1 [] eq_refl) as (qs & r & H1 & H2 & H3 & _). exists qs, r. split; [exact H1|]. split; [exact H2|exact H3]. Qed.
Print Assumptions C44_total.
(** and is decoded to these keys. *)
Theorem C44_sequences : forall qs r, Forall (fun q => telnet_seq (fst q) (snd q)) qs -> telnet_part r -> snd (outputs (flat_map fst qs ++ r) K1) = map snd qs.
Proof. exact seqs_run. Qed.
Print Assumptions C44_sequences.
Example C44_sequences_nonvacuous : exists qs r, Forall (fun q => telnet_seq (fst q) (snd q)) qs /\ telnet_part r /\
  flat_map fst qs ++ r = ["a"; "027"; "b"; "027"; "["; "5"; "x"; "013"; "c"; "027"; "["; "5"]%char /\ map snd qs = [KAscii "a"; KIgnored; KIgnored; KIgnored]%char.
Proof.
  exists [(["a"], KAscii "a"); (["027"; "b"], KIgnored); (["027"; "["; "5"; "x"], KIgnored); (["013"; "c"], KIgnored)]%char, (esc ["5"%char]).
  split; [|split; [constructor; cbn; intuition discriminate|split; reflexivity]].
  constructor; [constructor; unfold ordinary; cbn; intuition discriminate|]. constructor; [constructor; discriminate|]. constructor; [apply (sq_other "5" "x"); [cbn; intuition discriminate|discriminate]|]. constructor; [constructor; cbn; intuition discriminate|constructor].
Qed.
Print Assumptions C44_sequences_nonvacuous.
Example C44_nonvacuous : exists ts, Forall typed_ok ts /\ flat_map telnet_bytes ts = ["l"; "s"; "027"; "["; "D"; "127"; "027"; "["; "3"; "~"; "013"; "000"; "004"]%char /\
  map key_of ts = [KAscii "l"; KAscii "s"; KLeft; KBackspace; KCanc; KRet; KEof]%char.
Proof.
  exists [TyChar "l"; TyChar "s"; TyLeft; TyBackspace true; TyDelete; TyEnter false; TyEof]. split.
  - repeat (apply Forall_cons; [unfold typed_ok, ordinary; cbn; try exact I; intuition discriminate|]). apply Forall_nil.
  - split; reflexivity.
Qed.
(** A data byte 255, that well-formed streams can contain, is decoded as end of file; and
    Page Up (ESC [ 5 ~) as Delete. *)
Theorem C44_other_refuted : exists i p, Forall item_ok i /\ data_of i = ["255"%char] /\ snd (outputs (data_of i) K1) = [KEof] /\
  p = esc (lit "5~") /\ snd (outputs p K1) = [KCanc].
Proof. exists [IData "255"], (esc (lit "5~")). split; [repeat constructor|]. split; [reflexivity|]. split; [reflexivity|]. split; reflexivity. Qed.
Print Assumptions C44_other_refuted.
