(** The decoders give values of their types. *)
From Coq Require Import Permutation.
From Verif Require Import Base BaseFacts MsgpackModel MsgpackProofs FormProofs StructProofs JsonModel TxDecodeModel TxCodecSpec TxDecodeSpec GenDecodeModel GenDecodeSpec DecodedSpec.
From Verif Require MultisigModel BlockSpec BlockBind.
Local Open Scope N_scope.

(** What [get] reads from a value that exists has the property. *)
Definition gives {A} (get : value -> option A) (P : A -> Prop) : Prop := forall v a, wf v -> get v = Some a -> P a.

Lemma gives_impl {A} (get : value -> option A) (P Q : A -> Prop) : (forall a, P a -> Q a) -> gives get P -> gives get Q.
Proof. intros I G v a W E. apply I. exact (G v a W E). Qed.
Lemma gives_num m : gives (get_num m) (fun n => n <= m).
Proof. intros v a _ E. unfold get_num in E. destruct v; try discriminate. destruct ((0 <=? z)%Z && (z <=? Z.of_N m)%Z) eqn:B; [|discriminate]. injection E as <-. lia. Qed.
Lemma gives_u64 : gives get_u64 n64.
Proof. apply (gives_impl _ _ _) with (2 := gives_num _). unfold n64. intros a. change (2 ^ 64 - 1) with 18446744073709551615. change (2 ^ 64) with 18446744073709551616. lia. Qed.
Lemma gives_u32 : gives get_u32 n32.
Proof. apply (gives_impl _ _ _) with (2 := gives_num _). unfold n32. intros a. change (2 ^ 32 - 1) with 4294967295. change (2 ^ 32) with 4294967296. lia. Qed.
Lemma gives_u8 : gives (get_num 255) (fun n => n < 256).
Proof. apply (gives_impl _ _ _) with (2 := gives_num _). lia. Qed.
Lemma gives_any {A} (get : value -> option A) : gives get (fun _ => True).
Proof. intros v a _ _. exact I. Qed.
Lemma gives_str : gives get_str (fun s => is_utf8 s /\ short s).
Proof. intros v a W E. unfold get_str in E. destruct v; try discriminate; destruct (utf8 s) eqn:U; try discriminate; injection E as <-; (split; [exact U|exact W]). Qed.
Lemma Forall2_len {A B} (R : A -> B -> Prop) l r : Forall2 R l r -> length l = length r.
Proof. induction 1; cbn; congruence. Qed.
Lemma get_all_spec {A} (get : value -> option A) l : forall r, get_all get l = Some r -> Forall2 (fun v a => get v = Some a) l r.
Proof.
  induction l as [|v l IH]; intros r E; cbn [get_all] in E; [injection E as <-; constructor|].
  destruct (get v) as [a|] eqn:G; [|discriminate]. destruct (get_all get l) as [r'|]; [|discriminate]. injection E as <-. constructor; auto.
Qed.
Lemma gives_vec {A} (get : value -> option A) P : gives get P -> gives (get_vec get) (fun l => short l /\ Forall P l).
Proof.
  intros G v a W E. unfold get_vec in E. destruct v as [| | | | | | |l|]; try discriminate. destruct W as [L W]. apply get_all_spec in E.
  split; [unfold short, len; rewrite <- (Forall2_len _ _ _ E); exact L|]. clear L. induction E as [|v x l r Hv E IH]; [constructor|]. cbn [fold_right] in W. constructor; [eapply G; [apply W|exact Hv]|apply IH; apply W].
Qed.
Lemma gives_bytes : gives (get_vec get_u8) short.
Proof. apply (gives_impl _ (fun l => short l /\ Forall (fun _ => True) l)); [tauto|]. apply gives_vec, gives_any. Qed.
Lemma gives_array n : gives (get_array n) (fun s => length s = n).
Proof. intros v a _ E. unfold get_array in E. destruct (get_vec get_u8 v) as [s|]; [|discriminate]. destruct (Nat.eqb_spec (length s) n); [|discriminate]. injection E as <-. assumption. Qed.
Lemma gives_option {A} (get : value -> option A) P : gives get P -> gives (get_option get) (optional P).
Proof. intros G v a W E. unfold get_option in E. destruct v; try (injection E as <-; exact I); match type of E with match ?g with Some _ => _ | None => _ end = _ => destruct g eqn:H; [|discriminate] end; injection E as <-; eapply G; eassumption. Qed.
Lemma gives_byte_buf : gives get_byte_buf short.
Proof. intros v a W E. destruct v; try (cbn in E; discriminate); try (injection E as <-; exact W). exact (gives_bytes _ _ W E). Qed.

(** Entries *)
Lemma values_of_In (name : String.string) l v : In v (values_of name l) -> exists k, In (k, v) l.
Proof. unfold values_of. intros I. apply in_map_iff in I. destruct I as ([k w] & <- & I). apply filter_In in I. exists k. tauto. Qed.
Lemma field_In (name : String.string) l v : field_value name l = Some (Some v) -> exists k, In (k, v) l.
Proof. unfold field_value. intros E. apply (values_of_In name). destruct (values_of name l) as [|w [|]]; try discriminate. injection E as <-. left. reflexivity. Qed.
Definition wf_entries (l : list (value * value)) : Prop := forall k v, In (k, v) l -> wf v.
Lemma need_gives {A} (name : String.string) (get : value -> option A) P l a : gives get P -> wf_entries l -> need name get l = Some a -> P a.
Proof. intros G W E. unfold need in E. destruct (field_value name l) as [[v|]|] eqn:F; try discriminate. apply field_In in F. destruct F as [k F]. exact (G v a (W k v F) E). Qed.
Lemma or_default_gives {A} (name : String.string) (get : value -> option A) (P : A -> Prop) d l a : gives get P -> P d -> wf_entries l -> or_default name get d l = Some a -> P a.
Proof.
  intros G D W E. unfold or_default in E. destruct (field_value name l) as [[v|]|] eqn:F; try discriminate; [|injection E as <-; exact D].
  apply field_In in F. destruct F as [k F]. exact (G v a (W k v F) E).
Qed.

Lemma zero32_h32 : h32 zero32. Proof. reflexivity. Qed.
Lemma h32_short s : h32 s -> short s.
Proof. unfold h32, short, len. intros ->. reflexivity. Qed.
Lemma n32_n64 n : n32 n -> n64 n.
Proof. unfold n32, n64. change (2 ^ 32) with 4294967296. change (2 ^ 64) with 18446744073709551616. lia. Qed.
Lemma n64_0 : n64 0. Proof. reflexivity. Qed.
Lemma short_nil {A} : short (@nil A). Proof. reflexivity. Qed.
Lemma utf8_nil : is_utf8 [] /\ short (@nil byte). Proof. split; reflexivity. Qed.
Ltac next E :=
  match type of E with
  | match ?g with Some _ => _ | None => None end = Some _ => let H := fresh "G" in destruct g eqn:H; [|discriminate]
  end.
(** Turns [need]/[or_default] equations into properties, given the getter's. *)
Ltac use G thm W :=
  match type of G with
  | need _ _ _ = Some _ => eapply need_gives in G; [|exact thm|exact W]
  | or_default _ _ _ _ = Some _ => eapply or_default_gives in G; [|exact thm| |exact W]; [|cbv beta; first [exact utf8_nil | exact I | reflexivity]]
  end.

Lemma get_header_typed l h : wf_entries l -> get_header l = Some h ->
  header_fits h /\ is_utf8 (tx_genesis_id h) /\ h32 (tx_genesis_hash h) /\ h32 (group h) /\ h32 (lease h) /\ h32 (sender h) /\ h32 (rekey_to h).
Proof.
  intros W E. unfold get_header in E. repeat next E. injection E as <-.
  use G (gives_array 32) W. use G0 gives_u64 W. use G1 gives_u64 W. use G2 gives_u64 W. use G3 gives_bytes W. use G4 gives_str W.
  use G5 (gives_array 32) W. use G6 (gives_array 32) W. use G7 (gives_array 32) W. use G8 (gives_array 32) W.
  destruct G4 as [G4 G4']. unfold header_fits. repeat match goal with |- _ /\ _ => split end; first [assumption | apply h32_short; assumption].
Qed.

Lemma gives_schema : gives get_schema schema_fits.
Proof.
  intros v a W E. unfold get_schema in E. fields E W l. destruct l as [|x [|y [|]]]; try discriminate.
  cbn [fold_right] in W. destruct W as (Wx & Wy & _). repeat next E. injection E as <-. split; [exact (gives_u64 _ _ Wx G)|exact (gives_u64 _ _ Wy G0)].
Qed.
Lemma gives_asset_params : gives get_asset_params (fun p => params_in_memory p /\ short (unit_name p) /\ short (asset_name p) /\ short (url p)).
Proof.
  intros v q W E. unfold get_asset_params in E. fields E W l.
  destruct l as [|a l]; [discriminate|]. destruct l as [|b l]; [discriminate|]. destruct l as [|c l]; [discriminate|]. destruct l as [|d l]; [discriminate|].
  destruct l as [|e l]; [discriminate|]. destruct l as [|f l]; [discriminate|]. destruct l as [|g l]; [discriminate|]. destruct l as [|h l]; [discriminate|].
  destruct l as [|i l]; [discriminate|]. destruct l as [|j l]; [discriminate|]. destruct l as [|k l]; [discriminate|]. destruct l; [|discriminate].
  cbn [fold_right] in W. repeat next E. injection E as <-. unfold params_in_memory. cbn.
  pose proof (gives_str _ _ (proj1 (proj2 (proj2 (proj2 W)))) G2) as [U1 S1]. pose proof (gives_str _ _ (proj1 (proj2 (proj2 (proj2 (proj2 W))))) G3) as [U2 S2].
  pose proof (gives_str _ _ (proj1 (proj2 (proj2 (proj2 (proj2 (proj2 W)))))) G4) as [U3 S3].
  repeat match goal with |- _ /\ _ => split end; try assumption.
  - exact (gives_u64 _ _ (proj1 W) G).
  - exact (gives_u32 _ _ (proj1 (proj2 W)) G0).
  - eapply (gives_array 32); [|exact G5]; tauto.
  - eapply (gives_array 32); [|exact G6]; tauto.
  - eapply (gives_array 32); [|exact G7]; tauto.
  - eapply (gives_array 32); [|exact G8]; tauto.
  - eapply (gives_array 32); [|exact G9]; tauto.
Qed.

Section Keys.
Variable valid_key : bytes -> bool.
Lemma gives_key : gives (get_key valid_key) (fun s => valid_key s = true /\ short s).
Proof. intros v a W E. unfold get_key in E. next E. destruct (valid_key b) eqn:V; [|discriminate]. injection E as <-. split; [exact V|exact (gives_byte_buf _ _ W G)]. Qed.

(** What the kinds of transaction read. *)
Definition fields_typed (f : tx_fields) : Prop :=
  (forall h, header_fits h /\ is_utf8 (tx_genesis_id h) /\ h32 (tx_genesis_hash h) /\ h32 (group h) /\ h32 (lease h) /\ h32 (sender h) /\ h32 (rekey_to h) ->
     tx_typed valid_key (mkTx h f)).
Lemma typed_intro f : fields_fit f -> match f with Keyreg f => valid_key (vote_pk f) = true /\ h32 (selection_pk f) | AppCall f => extra_program_pages f < 2 ^ 32 | _ => True end ->
  asset_typed f -> (forall h, Forall h32 (addresses (mkTx h f)) \/ ~ (h32 (sender h) /\ h32 (rekey_to h))) -> fields_typed f.
Proof.
  intros F K A R h (Hf & U & a & b & c & d & e). unfold tx_typed, in_memory, tx_fits. cbn [tx_head fields]. split; [|split; [|exact A]].
  - tauto.
  - destruct (R h) as [X|X]; [exact X|exfalso; apply X; split; assumption].
Qed.
Ltac addrs := let h := fresh in let D := fresh in intros h; destruct (list_eq_dec (fun a b => Byte.byte_eq_dec a b) [] ([] : bytes)) as [D|D]; [|congruence];
  destruct (Nat.eq_dec (length (sender h)) 32) as [?|?]; [destruct (Nat.eq_dec (length (rekey_to h)) 32) as [?|?]|]; [left|right; unfold h32; tauto..]; cbn [addresses tx_head fields].

Lemma get_keyreg_typed l f : wf_entries l -> get_keyreg valid_key l = Some f -> fields_typed f.
Proof.
  intros W E. unfold get_keyreg in E. repeat next E. injection E as <-.
  use G gives_key W. use G0 (gives_array 32) W. use G1 gives_u64 W. use G2 gives_u64 W. use G3 gives_u64 W. clear G4.
  apply typed_intro; [unfold fields_fit; destruct G; repeat match goal with |- _ /\ _ => split end; first [assumption | apply h32_short; assumption]|split; [apply G|exact G0]|exact I|].
  addrs. repeat constructor; assumption.
Qed.
Lemma get_payment_typed l f : wf_entries l -> get_payment l = Some f -> fields_typed f.
Proof.
  intros W E. unfold get_payment in E. repeat next E. injection E as <-.
  use G (gives_array 32) W. use G0 gives_u64 W. use G1 (gives_option _ _ (gives_array 32)) W.
  apply typed_intro; [unfold fields_fit; cbn; split; [apply h32_short; assumption|]; split; [assumption|]; destruct o; [apply h32_short; assumption|exact I]|exact I|exact I|].
  addrs. cbn. destruct o; repeat constructor; assumption.
Qed.
Lemma get_asset_config_typed l f : wf_entries l -> get_asset_config l = Some f -> fields_typed f.
Proof.
  intros W E. unfold get_asset_config in E. repeat next E. injection E as <-. use G gives_u64 W. use G0 gives_asset_params W.
  destruct G0 as (P & S1 & S2 & S3). pose proof P as P'. unfold params_in_memory in P'. destruct P' as (T & D & U1 & U2 & U3 & M & A1 & A2 & A3 & A4).
  apply typed_intro; [unfold fields_fit; cbv zeta; repeat match goal with |- _ /\ _ => split end; first [assumption | apply h32_short; assumption | apply n32_n64; assumption]|exact I|exact P|].
  addrs. cbn. repeat constructor; assumption.
Qed.
Lemma get_asset_transfer_typed l f : wf_entries l -> get_asset_transfer l = Some f -> fields_typed f.
Proof.
  intros W E. unfold get_asset_transfer in E. repeat next E. injection E as <-. use G gives_u64 W. use G0 gives_u64 W.
  use G1 (gives_array 32) W. use G2 (gives_array 32) W. use G3 (gives_array 32) W.
  apply typed_intro; [unfold fields_fit; repeat match goal with |- _ /\ _ => split end; first [assumption | apply h32_short; assumption]|exact I|exact I|].
  addrs. cbn. repeat constructor; assumption.
Qed.
Lemma get_asset_freeze_typed l f : wf_entries l -> get_asset_freeze l = Some f -> fields_typed f.
Proof.
  intros W E. unfold get_asset_freeze in E. repeat next E. injection E as <-. use G (gives_array 32) W. use G0 gives_u64 W. clear G1.
  apply typed_intro; [unfold fields_fit; cbn; split; [apply h32_short; assumption|assumption]|exact I|exact I|].
  addrs. cbn. repeat constructor; assumption.
Qed.
Lemma get_app_call_typed l f : wf_entries l -> get_app_call l = Some f -> fields_typed f.
Proof.
  intros W E. unfold get_app_call in E. repeat next E. injection E as <-. use G gives_u64 W. clear G0.
  use G1 (gives_vec _ _ gives_bytes) W. use G2 (gives_vec _ _ (gives_array 32)) W. use G3 (gives_vec _ _ gives_u64) W. use G4 (gives_vec _ _ gives_u64) W.
  use G5 gives_schema W. use G6 gives_schema W. use G7 gives_bytes W. use G8 gives_bytes W. use G9 gives_u32 W.
  destruct G1, G2, G3, G4.
  apply typed_intro; [unfold fields_fit; cbn|cbn; exact G9|exact I|].
  - repeat (split; [solve [assumption | eapply Forall_impl; [|eassumption]; exact h32_short]|]). apply n32_n64. exact G9.
  - addrs. cbn. repeat constructor; assumption.
Qed.
Lemma get_compact_cert_typed l f : wf_entries l -> get_compact_cert l = Some f -> fields_typed f.
Proof.
  intros W E. unfold get_compact_cert in E. repeat next E. injection E as <-. use G gives_u64 W.
  apply typed_intro; [exact G|exact I|exact I|]. addrs. repeat constructor; assumption.
Qed.
Lemma get_fields_typed l f : wf_entries l -> get_fields valid_key l = Some f -> fields_typed f.
Proof.
  intros W E. unfold get_fields in E. destruct (names_only l); [|discriminate]. next E. unfold need in G. destruct (field_value "type" l) as [[v|]|]; try discriminate. clear - W E G.
  assert (K : forall e, In e (kinds valid_key) -> snd e l = Some f -> fields_typed f).
  { intros e I Ee. cbn [In kinds] in I. repeat destruct I as [<-|I]; [| | | | | | |contradiction]; cbn [snd] in Ee.
    - eapply get_keyreg_typed; eassumption. - eapply get_payment_typed; eassumption. - eapply get_asset_config_typed; eassumption.
    - eapply get_asset_transfer_typed; eassumption. - eapply get_asset_freeze_typed; eassumption. - eapply get_app_call_typed; eassumption. - eapply get_compact_cert_typed; eassumption. }
  unfold get_variant in G. destruct v as [| | |s|s| | | |]; try discriminate; destruct (List.find _ (kinds valid_key)) as [[n k]|] eqn:F; try discriminate; injection G as <-;
    apply find_some in F; exact (K _ (proj1 F) E).
Qed.
Lemma get_tx_typed : gives (get_tx valid_key) (tx_typed valid_key).
Proof.
  intros v t W E. unfold get_tx in E. destruct v as [| | | | | | | |l]; try discriminate. destruct W as [_ W]. destruct (forallb plain_key l); [|discriminate]. repeat next E. injection E as <-.
  assert (We : wf_entries l) by (intros k v I; eapply wf_In_map; eassumption). apply get_header_typed in G; [|exact We].
  apply get_fields_typed in G0; [|intros k v I; apply filter_In in I; eapply We; apply I]. apply G0. exact G.
Qed.
Lemma decode_tx_typed s t : decode_tx valid_key s = Some t -> tx_typed valid_key t.
Proof. intros E. unfold decode_tx in E. next E. eapply get_tx_typed; [|exact E]. apply decode_lemma in G. tauto. Qed.

Variables (bins : bool) (valid_sig : bytes -> bool).
Lemma gives_seq : gives (get_seq bins) short.
Proof. intros v a W E. unfold get_seq in E. destruct v; try (cbn in E; discriminate); [destruct bins; [injection E as <-; exact W|discriminate]|]. exact (gives_bytes _ _ W E). Qed.
Lemma gives_fixed n : gives (get_fixed bins n) (fun s => length s = n).
Proof. intros v a _ E. unfold get_fixed in E. next E. destruct (Nat.eqb_spec (length b) n); [|discriminate]. injection E as <-. assumption. Qed.
Lemma gives_sig : gives (get_sig bins valid_sig) (sig_typed valid_sig).
Proof. intros v a W E. unfold get_sig in E. next E. destruct (valid_sig b) eqn:V; [|discriminate]. injection E as <-. split; [eapply gives_fixed; eassumption|exact V]. Qed.
Lemma gives_subsig : gives (get_subsig valid_key bins valid_sig) (fun s => valid_key (MultisigModel.key s) = true /\ match MultisigModel.sig s with Some g => length g = 64%nat /\ valid_sig g = true | None => True end).
Proof.
  intros v a W E. unfold get_subsig in E. destruct v as [| | | | | | |l|l]; try discriminate.
  - destruct W as [_ W]. destruct l as [|k [|s [|]]]; try discriminate. cbn [fold_right] in W. destruct W as (Wk & Ws & _). repeat next E. injection E as <-. cbn.
    split; [exact (proj1 (gives_key _ _ Wk G))|]. exact (gives_option _ _ gives_sig _ _ Ws G0).
  - destruct W as [_ W]. assert (We : wf_entries l) by (intros k v I; eapply wf_In_map; eassumption). destruct (names_only l); [|discriminate]. repeat next E. injection E as <-. cbn.
    use G gives_key We. use G0 (gives_option _ _ gives_sig) We. split; [apply G|exact G0].
Qed.
Lemma gives_multisig : gives (get_multisig valid_key bins valid_sig) (msig_in_memory valid_key valid_sig).
Proof.
  intros v m W E. unfold get_multisig in E. fields E W l.
  destruct l as [|a [|b [|c [|]]]]; try discriminate. cbn [fold_right] in W. destruct W as (Wa & Wb & Wc & _). repeat next E. injection E as <-. unfold msig_in_memory. cbn.
  split; [exact (gives_u8 _ _ Wa G)|]. split; [exact (gives_u8 _ _ Wb G0)|]. exact (proj2 (gives_vec _ _ gives_subsig _ _ Wc G1)).
Qed.
Lemma gives_lsig : gives (get_lsig valid_key bins valid_sig) (fun l => sig_typed valid_sig (lsig_sig l) /\ msig_in_memory valid_key valid_sig (lsig_msig l)).
Proof.
  intros v m W E. unfold get_lsig in E. fields E W l.
  destruct l as [|a [|b [|c [|d [|]]]]]; try discriminate. cbn [fold_right] in W. destruct W as (Wa & Wb & Wc & Wd & _). repeat next E. injection E as <-. cbn.
  split; [exact (gives_sig _ _ Wb G0)|]. exact (gives_multisig _ _ Wc G1).
Qed.
Lemma get_signed_typed : gives (get_signed_tx valid_key bins valid_sig) (signed_typed valid_key valid_sig).
Proof.
  intros v m W E. unfold get_signed_tx in E. destruct v as [| | | | | | |l|l]; try discriminate.
  - destruct W as [_ W]. destruct l as [|a [|b [|c [|d r]]]]; try discriminate. cbn [fold_right] in W. destruct W as (Wa & Wb & Wc & Wd & Wr). repeat next E.
    pose proof (gives_sig _ _ Wa G) as S1. pose proof (gives_option _ _ gives_multisig _ _ Wb G0) as S2. pose proof (gives_option _ _ gives_lsig _ _ Wc G1) as S3.
    pose proof (get_tx_typed _ _ Wd G2) as S4. destruct r as [|e [|]]; [|next E|discriminate]; injection E as <-; unfold signed_typed; cbn [stx_sig stx_msig stx_lsig stx_tx stx_auth].
    + repeat (split; [assumption|]). reflexivity.
    + repeat (split; [assumption|]). eapply (gives_fixed 32); [|exact G3]. cbn [fold_right] in Wr. tauto.
  - destruct W as [_ W]. assert (We : wf_entries l) by (intros k v I; eapply wf_In_map; eassumption). destruct (names_only l); [|discriminate]. repeat next E. injection E as <-. unfold signed_typed. cbn [stx_sig stx_msig stx_lsig stx_tx stx_auth].
    use G gives_sig We. use G0 (gives_option _ _ gives_multisig) We. use G1 (gives_option _ _ gives_lsig) We. use G2 get_tx_typed We. use G3 (gives_fixed 32) We.
    repeat (split; [assumption|]). assumption.
Qed.
Lemma decode_signed_typed s t : decode_signed valid_key bins valid_sig s = Some t -> signed_typed valid_key valid_sig t.
Proof. intros E. unfold decode_signed in E. next E. eapply get_signed_typed; [|exact E]. apply decode_lemma in G. tauto. Qed.
End Keys.

(** ** Maps *)
Section Maps.
Context {K A : Type} (eqb : K -> K -> bool) (getk : value -> option K) (get : value -> option A).
Lemma put_keys k a (l : list (K * A)) : (forall x y, eqb x y = true <-> x = y) -> NoDup (map fst l) -> NoDup (map fst (put eqb k a l)).
Proof.
  intros Q N. unfold put. rewrite map_app. cbn [map fst].
  assert (F : forall x, In x (map fst (filter (fun e => negb (eqb (fst e) k)) l)) -> In x (map fst l) /\ x <> k).
  { intros x I. apply in_map_iff in I. destruct I as (e & <- & I). apply filter_In in I. destruct I as [I B]. split; [apply in_map; exact I|].
    intros X. apply Q in X. rewrite X in B. discriminate. }
  assert (M : NoDup (map fst (filter (fun e => negb (eqb (fst e) k)) l))).
  { clear F. induction l as [|e l IH]; [constructor|]. cbn [map filter] in *. inversion N as [|? ? Ni N']; subst. destruct (negb (eqb (fst e) k)); [|auto].
    cbn [map]. constructor; [|auto]. intros I. apply Ni. apply in_map_iff in I. destruct I as (e' & <- & I). apply filter_In in I. apply in_map. apply I. }
  apply NoDup_rev in M. rewrite <- (rev_involutive (_ ++ _)). apply NoDup_rev. rewrite rev_app_distr. cbn [rev app]. constructor; [|exact M].
  rewrite <- in_rev. intros I. apply F in I. apply (proj2 I). reflexivity.
Qed.
Lemma put_Forall (P : K * A -> Prop) k a l : P (k, a) -> Forall P l -> Forall P (put eqb k a l).
Proof. intros H F. unfold put. apply Forall_app. split; [|repeat constructor; exact H]. rewrite Forall_forall in *. intros x I. apply filter_In in I. apply F, I. Qed.
Lemma gives_map (Pk : K -> Prop) (P : A -> Prop) : (forall x y, eqb x y = true <-> x = y) -> gives getk Pk -> gives get P ->
  gives (get_map eqb getk get) (fun l => NoDup (map fst l) /\ Forall (fun e => Pk (fst e) /\ P (snd e)) l).
Proof.
  intros Q Gk G v m W E. unfold get_map in E. destruct v as [| | | | | | | |l]; try discriminate. destruct W as [_ W].
  assert (X : forall acc, (NoDup (map fst acc) /\ Forall (fun e => Pk (fst e) /\ P (snd e)) acc) -> get_entries eqb getk get l acc = Some m -> NoDup (map fst m) /\ Forall (fun e => Pk (fst e) /\ P (snd e)) m).
  { clear E. induction l as [|[k x] l IH]; intros acc B E; cbn [get_entries] in E; [injection E as <-; exact B|]. cbn [fold_right] in W. destruct W as [[Wk Wx] W].
    destruct (getk k) as [k'|] eqn:Ek; [|discriminate]. destruct (get x) as [a|] eqn:Ea; [|discriminate]. apply (IH W) in E; [exact E|].
    split; [apply put_keys; [exact Q|apply B]|apply put_Forall; [|apply B]]. cbn. split; [exact (Gk _ _ Wk Ek)|exact (G _ _ Wx Ea)]. }
  apply (X []); [split; constructor|exact E].
Qed.
End Maps.

Section Read.
Variables (valid_key : bytes -> bool) (bins : bool).
Lemma gives_32 : gives (get_32 bins) h32. Proof. exact (gives_fixed bins 32). Qed.
Ltac uses := match goal with
  | G : get_u64 ?v = Some ?n |- n64 ?n => eapply gives_u64; [|exact G]
  | G : get_u32 ?v = Some ?n |- n32 ?n => eapply gives_u32; [|exact G]
  | G : get_32 _ ?v = Some ?n |- h32 ?n => eapply gives_32; [|exact G]
  | G : get_str ?v = Some ?n |- is_utf8 ?n => eapply gives_str; [|exact G]
  | G : get_schema ?v = Some ?n |- schema_fits ?n => eapply gives_schema; [|exact G]
  | G : get_key _ ?v = Some ?n |- valid_key ?n = true => eapply gives_key; [|exact G]
  end; tauto.
Definition rewards_typed (r : rewards_state) : Prop := h32 (rs_fee_sink r) /\ h32 (rs_rewards_pool r) /\ n64 (level r) /\ n64 (rate r) /\ n64 (residue r) /\ n64 (recalculation_round r).
Lemma gives_rewards : gives (get_rewards bins) rewards_typed.
Proof.
  intros v q W E. unfold get_rewards in E. fields E W l.
  destruct l as [|a [|b [|c [|d [|e [|f [|]]]]]]]; try discriminate. cbn [fold_right] in W. repeat next E. injection E as <-. unfold rewards_typed. cbn [rs_fee_sink rs_rewards_pool level rate residue recalculation_round].
  repeat match goal with |- _ /\ _ => split end; uses.
Qed.
Lemma gives_vote : gives get_vote (fun v => n64 (delay v)).
Proof.
  intros v q W E. unfold get_vote in E. fields E W l.
  destruct l as [|a [|b [|c [|]]]]; try discriminate. cbn [fold_right] in W. repeat next E. injection E as <-. cbn [delay]. uses.
Qed.
Lemma gives_cert : gives (get_cert bins) (fun c => h32 (voters c) /\ n64 (voters_total c) /\ n64 (cert_next_round c)).
Proof.
  intros v q W E. unfold get_cert in E. fields E W l.
  destruct l as [|a [|b [|c [|]]]]; try discriminate. cbn [fold_right] in W. repeat next E. injection E as <-. cbn [voters voters_total cert_next_round].
  repeat match goal with |- _ /\ _ => split end; uses.
Qed.
Lemma one_cert (l : list (cert_type * cert_state)) : NoDup (map fst l) -> (length l <= 1)%nat.
Proof.
  intros N. destruct l as [|[[] ?] [|[[] ?] l]]; cbn; try lia. exfalso. inversion N as [|? ? Ni _]; subst. apply Ni. left. reflexivity.
Qed.
Lemma get_header_in_memory : gives (get_block_header bins) (fun h => header_in_memory h /\ upgrade h = no_upgrade).
Proof.
  intros v q W E. unfold get_block_header in E. fields E W l.
  destruct l as [|a l]; [discriminate|]. destruct l as [|b l]; [discriminate|]. destruct l as [|c l]; [discriminate|]. destruct l as [|d l]; [discriminate|].
  destruct l as [|e l]; [discriminate|]. destruct l as [|f l]; [discriminate|]. destruct l as [|g l]; [discriminate|]. destruct l as [|h l]; [discriminate|].
  destruct l as [|i l]; [discriminate|]. destruct l as [|j l]; [discriminate|]. destruct l as [|k l]; [discriminate|]. destruct l; [|discriminate].
  cbn [fold_right] in W. repeat next E. injection E as <-. split; [|reflexivity].
  apply gives_rewards in G6; [|tauto]. apply gives_vote in G7; [|tauto].
  eapply (gives_map _ _ _ (fun _ => True)) in G9; [|intros [] []; tauto|apply gives_any|exact gives_cert|tauto]. destruct G9 as [N F].
  apply gives_str in G4 as U; [|tauto]. destruct U as [U S].
  assert (Q : forall x, h32 x -> short x) by exact h32_short.
  assert (T1 : n64 n) by uses. assert (T2 : h32 b0) by uses. assert (T3 : h32 b1) by uses. assert (T4 : h32 b2) by uses. assert (T5 : n64 n0) by uses. assert (T6 : h32 b4) by uses.
  assert (T7 : n64 n1) by uses. destruct G6 as (R1 & R2 & R3 & R4 & R5 & R6).
  assert (Fc : Forall (fun e => h32 (voters (snd e)) /\ n64 (voters_total (snd e)) /\ n64 (cert_next_round (snd e))) l) by (eapply Forall_impl; [|exact F]; tauto).
  unfold header_in_memory. split.
  - apply BlockBind.header_value_wf. unfold BlockSpec.header_fits. pose proof (one_cert l N).
    repeat (split; [first [assumption | apply Q; assumption]|]). eapply Forall_impl; [|exact Fc]. intros x (X & Y & Z). auto.
  - cbv zeta. repeat match goal with |- _ /\ _ => split end; assumption.
Qed.
Lemma decode_header_typed s h : decode_block_header bins s = Some h -> header_in_memory h /\ upgrade h = no_upgrade.
Proof. intros E. unfold decode_block_header in E. next E. eapply get_header_in_memory; [|exact E]. apply decode_lemma in G. tauto. Qed.

Lemma bytes_eqb_iff x y : bytes_eqb x y = true <-> x = y. Proof. apply bytes_eqb_spec. Qed.
Lemma gives_teal : gives (get_teal bins) (fun t => n64 (teal_uint t)).
Proof.
  intros v q W E. unfold get_teal in E. fields E W l.
  destruct l as [|a [|b [|c [|]]]]; try discriminate. cbn [fold_right] in W. repeat next E. injection E as <-. cbn [teal_uint]. uses.
Qed.
Lemma gives_teal_map : gives (get_teal_map bins) teal_map_in_memory.
Proof.
  intros v m W E. eapply (gives_map _ _ _ is_utf8 (fun t => n64 (teal_uint t))) in E; [exact E|exact bytes_eqb_iff| |exact gives_teal|exact W].
  eapply gives_impl; [|exact gives_str]. cbv beta. tauto.
Qed.
Lemma gives_indexed {A} (get : value -> option A) P : gives get P -> gives (get_indexed get) (indexed_in_memory P).
Proof. intros G v m W E. eapply (gives_map _ _ _ n64 P) in E; [exact E|exact N.eqb_eq|exact gives_u64|exact G|exact W]. Qed.
Lemma gives_params : gives (get_params bins) params_in_memory.
Proof.
  intros v q W E. unfold get_params in E. fields E W l.
  destruct l as [|a l]; [discriminate|]. destruct l as [|b l]; [discriminate|]. destruct l as [|c l]; [discriminate|]. destruct l as [|d l]; [discriminate|].
  destruct l as [|e l]; [discriminate|]. destruct l as [|f l]; [discriminate|]. destruct l as [|g l]; [discriminate|]. destruct l as [|h l]; [discriminate|].
  destruct l as [|i l]; [discriminate|]. destruct l as [|j l]; [discriminate|]. destruct l as [|k l]; [discriminate|]. destruct l; [|discriminate].
  cbn [fold_right] in W. repeat next E. injection E as <-. unfold params_in_memory. cbn [total decimals unit_name asset_name url metadata_hash manager reserve freeze clawback].
  repeat match goal with |- _ /\ _ => split end; uses.
Qed.
Lemma gives_holding : gives get_holding (fun h => n64 (held h)).
Proof.
  intros v q W E. unfold get_holding in E. fields E W l.
  destruct l as [|a [|b [|]]]; try discriminate. cbn [fold_right] in W. repeat next E. injection E as <-. cbn [held]. uses.
Qed.
Lemma gives_local : gives (get_app_local bins) (fun x => schema_fits (al_schema x) /\ teal_map_in_memory (al_values x)).
Proof.
  intros v q W E. unfold get_app_local in E. fields E W l.
  destruct l as [|a [|b [|]]]; try discriminate. cbn [fold_right] in W. repeat next E. injection E as <-. cbn [al_schema al_values].
  split; [uses|]. eapply gives_teal_map; [|exact G0]. tauto.
Qed.
Lemma gives_schemas : gives get_schemas (fun x => schema_fits (fst x) /\ schema_fits (snd x)).
Proof.
  intros v q W E. unfold get_schemas in E. fields E W l. destruct l as [|a [|b [|]]]; try discriminate.
  cbn [fold_right] in W. repeat next E. injection E as <-. cbn [fst snd]. split; uses.
Qed.
Lemma gives_app : gives (get_app_params bins) (fun x => teal_map_in_memory (ap_state x) /\ schema_fits (ap_local x) /\ schema_fits (ap_global x) /\ n32 (ap_pages x)).
Proof.
  intros v q W E. unfold get_app_params in E. fields E W l.
  destruct l as [|a [|b [|c [|d [|f [|]]]]]]; try discriminate.
  cbn [fold_right] in W. repeat next E. injection E as <-. cbn [ap_state ap_local ap_global ap_pages].
  apply gives_schemas in G2; [|tauto]. split; [eapply gives_teal_map; [|exact G1]; tauto|]. split; [apply G2|]. split; [apply G2|]. uses.
Qed.
Lemma gives_account : gives (get_account_data valid_key bins) (account_in_memory valid_key).
Proof.
  intros v q W E. unfold get_account_data in E. fields E W l.
  destruct l as [|a l]; [discriminate|]. destruct l as [|b l]; [discriminate|]. destruct l as [|c l]; [discriminate|]. destruct l as [|d l]; [discriminate|].
  destruct l as [|e l]; [discriminate|]. destruct l as [|f l]; [discriminate|]. destruct l as [|g l]; [discriminate|]. destruct l as [|h l]; [discriminate|].
  destruct l as [|i l]; [discriminate|]. destruct l as [|j l]; [discriminate|]. destruct l as [|k l]; [discriminate|]. destruct l as [|l0 l]; [discriminate|].
  destruct l as [|m l]; [discriminate|]. destruct l as [|n l]; [discriminate|]. destruct l as [|o l]; [discriminate|]. destruct l as [|p l]; [discriminate|]. destruct l; [|discriminate].
  cbn [fold_right] in W. repeat next E. injection E as <-. unfold account_in_memory.
  cbn [ad_algos ad_rewards_base ad_rewarded ad_vote_id ad_selection_id ad_vote_first ad_vote_last ad_dilution ad_asset_params ad_assets ad_auth ad_locals ad_apps ad_schema ad_pages].
  repeat (split; [first [uses
    | match goal with G : get_indexed (get_params _) _ = Some _ |- _ => eapply (gives_indexed _ _ gives_params); [|exact G]; tauto end
    | match goal with G : get_indexed get_holding _ = Some _ |- _ => eapply (gives_indexed _ _ gives_holding); [|exact G]; tauto end
    | match goal with G : get_indexed (get_app_local _) _ = Some _ |- _ => eapply (gives_indexed _ _ gives_local); [|exact G]; tauto end
    | match goal with G : get_indexed (get_app_params _) _ = Some _ |- _ => eapply (gives_indexed _ _ gives_app); [|exact G]; tauto end]|]). uses.
Qed.
Lemma gives_allocation : gives (get_allocation valid_key bins) (fun a => is_utf8 (alloc_address a) /\ is_utf8 (alloc_comment a) /\ account_in_memory valid_key (alloc_state a)).
Proof.
  intros v q W E. unfold get_allocation in E. fields E W l.
  destruct l as [|a [|b [|c [|]]]]; try discriminate. cbn [fold_right] in W. repeat next E. injection E as <-. cbn [alloc_address alloc_comment alloc_state].
  split; [uses|]. split; [uses|]. eapply gives_account; [|exact G1]. tauto.
Qed.
Lemma gives_genesis : gives (get_genesis valid_key bins) (genesis_typed valid_key).
Proof.
  intros v q W E. unfold get_genesis in E. fields E W l.
  destruct l as [|a l]; [discriminate|]. destruct l as [|b l]; [discriminate|]. destruct l as [|c l]; [discriminate|]. destruct l as [|d l]; [discriminate|].
  destruct l as [|e l]; [discriminate|]. destruct l as [|f l]; [discriminate|]. destruct l as [|g l]; [discriminate|]. destruct l as [|h l]; [discriminate|].
  destruct l as [|i l]; [discriminate|]. destruct l; [|discriminate]. cbn [fold_right] in W. repeat next E. injection E as <-. unfold genesis_typed.
  cbn [schema_id network g_rewards_pool g_fee_sink g_timestamp g_comment allocations]. repeat (split; [uses|]).
  eapply (gives_vec _ _ gives_allocation); [|exact G2]. tauto.
Qed.
Lemma load_genesis_typed file g : load_genesis valid_key bins file = Ok g -> genesis_typed valid_key g.
Proof.
  unfold load_genesis. destruct file as [s|]; [|discriminate]. destruct (decode s) as [v|] eqn:D; [|discriminate]. destruct (get_genesis valid_key bins v) as [g'|] eqn:G; [|discriminate].
  intros E. injection E as <-. eapply gives_genesis; [|exact G]. apply decode_lemma in D. tauto.
Qed.
End Read.
