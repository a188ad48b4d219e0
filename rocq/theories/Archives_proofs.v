From Verif Require Import Base Text Identity Money Archives Archives_spec.
From Coq Require Import ZifyBool ZifyNat.
Local Open Scope list_scope.
Local Open Scope Z_scope.

Lemma number_restores z rest : load_number ([INum z] ++ rest) = Ret (z, rest).
Proof. reflexivity. Qed.
Lemma both_restores {A B} (f : reader A) (g : reader B) sx sy x y rest :
  (forall rest, f (sx ++ rest) = Ret (x, rest)) -> (forall rest, g (sy ++ rest) = Ret (y, rest)) ->
  load_both f g ((sx ++ sy) ++ rest) = Ret ((x, y), rest).
Proof. intros F G. unfold load_both, bind. rewrite <- app_assoc, F. cbn [fst snd]. rewrite G. reflexivity. Qed.
Lemma map_restores {A B} (h : A -> B) (f : reader A) s x rest : f s = Ret (x, rest) -> load_map h f s = Ret (h x, rest).
Proof. intros F. unfold load_map, bind. rewrite F. reflexivity. Qed.
Lemma times_read {A B} (save : A -> list item) (f : reader B) (g : A -> B) l : (forall x, In x l -> forall rest, f (save x ++ rest) = Ret (g x, rest)) ->
  forall rest, load_times f (length l) (flat_map save l ++ rest) = Ret (map g l, rest).
Proof.
  intros F. induction l as [|x l IH]; intros rest; [reflexivity|]. cbn [length load_times flat_map map].
  apply (map_restores (fun p => fst p :: snd p) _ _ (g x, map g l)). apply both_restores.
  - intros r. apply F. now left.
  - apply IH. intros y I. apply F. now right.
Qed.
Lemma all_read {A B} (save : A -> list item) (f : reader B) (g : A -> B) l : (forall x, In x l -> forall rest, f (save x ++ rest) = Ret (g x, rest)) ->
  forall rest, load_all f (save_all save l ++ rest) = Ret (map g l, rest).
Proof. intros F rest. unfold load_all, save_all. cbn [app load_number bind fst snd]. rewrite Nat2Z.id. now apply times_read. Qed.
Lemma all_restores {A} (save : A -> list item) (f : reader A) : restores save f -> restores (save_all save) (load_all f).
Proof. intros F l rest. rewrite (all_read save f (fun x => x)) by auto. now rewrite map_id. Qed.
Lemma identity_restores : restores save_identity load_identity.
Proof. apply all_restores. intros x rest. reflexivity. Qed.
Lemma goods_restores : restores save_goods load_goods.
Proof. apply all_restores. intros [i q] rest. apply both_restores; [apply identity_restores|reflexivity]. Qed.
Lemma bit_back b : negb (bit b =? 0) = b.
Proof. now destruct b. Qed.
Lemma share_restores : restores save_share load_share.
Proof. intros [r v p d c e] rest. cbn. now rewrite !bit_back. Qed.
Lemma country_restores : restores save_country load_country.
Proof. intros [x y] rest. reflexivity. Qed.
Lemma currency_restores : restores save_currency load_currency.
Proof. intros [a b c d] rest. reflexivity. Qed.
Lemma jurisdiction_restores : restores save_jurisdiction load_jurisdiction.
Proof. intros [c t] rest. apply (map_restores (fun p => mk_jurisdiction (fst p) (snd p)) _ _ (c, t)). apply both_restores; [apply country_restores|apply currency_restores]. Qed.
Lemma head_restores : restores save_head load_head.
Proof.
  intros [t s r n d] rest. unfold save_head. cbn [h_type h_sender h_recipient h_sent h_received].
  apply (map_restores (fun p => mk_head (fst p) (fst (fst (snd p))) (snd (fst (snd p))) (fst (snd (snd p))) (snd (snd (snd p)))) _ _ (t, ((s, r), (n, d)))).
  apply both_restores; [reflexivity|]. intros r1. rewrite app_assoc. apply both_restores; [|reflexivity].
  intros r2. apply both_restores; apply identity_restores.
Qed.
(** What reading makes of a message. *)
Definition read_back (side : bool) (l : letter) : letter :=
  match l_body l with
  | Plain => l
  | Demand _ => mk_letter (new_head (code_of (Demand []))) (Demand [])
  | Volumes _ _ => mk_letter (new_head (code_of (Volumes side []))) (Volumes side [])
  | b => mk_letter (new_head (code_of b)) b
  end.
Lemma letter_read side l rest : load_letter side (save_letter l ++ rest) = Ret (read_back side l, rest).
Proof.
  destruct l as [h b]. unfold save_letter, load_letter. cbn [l_body app load_number bind fst snd]. destruct b as [|f t g|s|d|x v]; cbn [class_of Z.eqb].
  - apply (map_restores (fun h => mk_letter h Plain) _ _ h). apply head_restores.
  - apply (map_restores (fun p => let b := Transfer (fst (fst p)) (snd (fst p)) (snd p) in mk_letter (new_head (code_of b)) b) _ _ ((f, t), g)).
    rewrite app_assoc. apply both_restores; [|apply goods_restores]. intros r. apply both_restores; apply identity_restores.
  - apply (map_restores (fun s => mk_letter (new_head (code_of (Record_ s))) (Record_ s)) _ _ s). apply all_restores.
    intros [c n] r. apply both_restores; [apply share_restores|reflexivity].
  - reflexivity.
  - reflexivity.
Qed.
Lemma agent_read side target x rest : load_agent side target (save_agent x ++ rest) =
  Ret (mk_agent (a_identity x) (a_children x) (map (fun p => (fst p, read_back side (snd p))) (a_inbox x)) (map (read_back side) (a_outbox x))
         (a_locked x) (a_random x) (a_callbacks target), rest).
Proof.
  unfold load_agent, save_agent. destruct x as [i n inb out lk rd cb]. cbn [a_identity a_children a_inbox a_outbox a_locked a_random].
  erewrite (map_restores _ _ _ ((i, n), ((map (fun p => (fst p, read_back side (snd p))) inb, map (read_back side) out), (bit lk, bit rd)))).
  - cbn. now rewrite !bit_back.
  - rewrite (app_assoc (save_identity i)). apply both_restores; [intros r; apply both_restores; [apply identity_restores|reflexivity]|].
    intros r. rewrite (app_assoc (save_all _ inb)). apply both_restores.
    + intros r1. apply both_restores.
      * intros r2. apply (all_read (fun p => INum (fst p) :: save_letter (snd p))). intros [t l] _ r3. cbn [fst snd].
        change (INum t :: save_letter l) with ([INum t] ++ save_letter l). apply both_restores; [reflexivity|]. intros r4. apply letter_read.
      * intros r2. apply all_read. intros l _ r3. apply letter_read.
    + intros r1. apply (both_restores load_number load_number [INum (bit lk)] [INum (bit rd)]); reflexivity.
Qed.
