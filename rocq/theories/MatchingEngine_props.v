(** Property theorems C39. *)
From Verif Require Import Base Identity Money BinaryBook MatchingEngine MatchingEngine_spec MatchingEngine_proofs.

(** The book and the queued reports of a ticker depend on the operations addressed to it only. *)
Theorem C39_books_are_isolated : forall h t, find t (engine_run h) =
  if existsb is_insert (addressed t h) then Some (after (addressed t h), reports_of (addressed t h)) else None.
Proof. exact isolation. Qed.
Print Assumptions C39_books_are_isolated.
Theorem C39_other_books_unchanged : forall h t x t', t <> t' -> find t' (engine_run (h ++ [(t, x)])) = find t' (engine_run h).
Proof.
  intros h t x t' H. unfold engine_run. rewrite fold_left_app. cbn. exact (step_other _ _ _ _ (run_sorted h) H).
Qed.
Print Assumptions C39_other_books_unchanged.
Theorem C39_cancel_for_unknown_ticker : forall h t i, find t (engine_run h) = None -> engine_run (h ++ [(t, Cancel i)]) = engine_run h.
Proof. exact cancel_unknown. Qed.
Print Assumptions C39_cancel_for_unknown_ticker.
Theorem C39_one_book_per_ticker : forall h, NoDup (map fst (engine_run h)).
Proof. exact keys_nodup. Qed.
Print Assumptions C39_one_book_per_ticker.
Example C39_case :
  let t1 := mk_ticker [1] [9] in let t2 := mk_ticker [1] [8] in
  let h := [(t1, Insert (mk_order GTC Buy 1 [7] 100 5)); (t2, Insert (mk_order GTC Sell 2 [7] 90 5)); (t2, Cancel 0); (t1, Insert (mk_order GTC Sell 1 [6] 100 2))] in
  map fst (engine_run h) = [t2; t1] /\ option_map (fun s => orders (fst s)) (find t1 (engine_run h)) = Some [0]
  /\ option_map (fun s => length (snd s)) (find t1 (engine_run h)) = Some 3%nat /\ find (mk_ticker [2] []) (engine_run h) = None.
Proof. vm_compute. repeat split. Qed.
