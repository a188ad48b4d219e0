-Q theories Verif
theories/Access.v
theories/Access_props.v
theories/Access_spec.v
theories/Accounting.v
theories/Accounting_proofs.v
theories/Accounting_props.v
theories/Accounting_spec.v
theories/Algorithms.v
theories/Algorithms_proofs.v
theories/Algorithms_props.v
theories/Algorithms_spec.v
theories/Archives.v
theories/Archives_proofs.v
theories/Archives_props.v
theories/Archives_spec.v
theories/Audience_proofs.v
theories/Audience_props.v
theories/Audience_spec.v
theories/Base.v
theories/Belongings.v
theories/Belongings_proofs.v
theories/Belongings_props.v
theories/Belongings_spec.v
theories/BinaryBook.v
theories/BinaryBook_proofs.v
theories/BinaryBook_proofs2.v
theories/BinaryBook_proofs3.v
theories/BinaryBook_props.v
theories/BinaryBook_spec.v
theories/Bindings.v
theories/Bindings_proofs.v
theories/Bindings_props.v
theories/Bindings_spec.v
theories/BlockPool.v
theories/BlockPool_proofs.v
theories/BlockPool_props.v
theories/BlockPool_spec.v
theories/BlockingQueue.v
theories/BlockingQueue_proofs.v
theories/BlockingQueue_props.v
theories/BlockingQueue_spec.v
theories/BookCopies.v
theories/BookCopies_props.v
theories/Causality_proofs.v
theories/Causality_props.v
theories/Causality_spec.v
theories/CheckDigits.v
theories/CheckDigits_proofs.v
theories/CheckDigits_props.v
theories/CheckDigits_spec.v
theories/Clearing.v
theories/Clearing_proofs.v
theories/Clearing_props.v
theories/Clearing_spec.v
theories/Codes.v
theories/Codes_proofs.v
theories/Codes_props.v
theories/Codes_spec.v
theories/Communicator.v
theories/Communicator_proofs.v
theories/Communicator_props.v
theories/Communicator_spec.v
theories/Company.v
theories/Company_proofs.v
theories/Company_props.v
theories/Company_spec.v
theories/Construction.v
theories/Construction_proofs.v
theories/Construction_proofs2.v
theories/Construction_proofs3.v
theories/Construction_proofs4.v
theories/Construction_props.v
theories/Construction_spec.v
theories/Copies.v
theories/Copies_props.v
theories/Demands.v
theories/Demands_proofs.v
theories/Demands_proofs2.v
theories/Demands_proofs3.v
theories/Demands_props.v
theories/Demands_spec.v
theories/Depth_proofs.v
theories/Depth_props.v
theories/Depth_spec.v
theories/Display.v
theories/Display_proofs.v
theories/Display_props.v
theories/Display_spec.v
theories/Distributed.v
theories/DistributedRun.v
theories/DistributedRun_proofs.v
theories/DistributedRun_proofs2.v
theories/DistributedRun_props.v
theories/DistributedRun_spec.v
theories/Distributed_proofs.v
theories/Distributed_proofs2.v
theories/Distributed_proofs3.v
theories/Distributed_proofs4.v
theories/Distributed_props.v
theories/Distributed_spec.v
theories/Dividends.v
theories/Dividends_proofs.v
theories/Dividends_proofs2.v
theories/Dividends_props.v
theories/Dividends_spec.v
theories/Double_proofs.v
theories/Double_spec.v
theories/Economy.v
theories/Economy_proofs.v
theories/Economy_props.v
theories/Economy_spec.v
theories/Environment.v
theories/Environment_props.v
theories/Errors.v
theories/Errors_props.v
theories/Exchange.v
theories/Exchange_proofs.v
theories/Exchange_props.v
theories/Exchange_spec.v
theories/Feed_proofs.v
theories/Feed_props.v
theories/Feed_spec.v
theories/Fills_proofs.v
theories/Fills_proofs2.v
theories/Fills_proofs3.v
theories/Fills_props.v
theories/Fills_spec.v
theories/FirstCome.v
theories/FirstCome_proofs.v
theories/FirstCome_props.v
theories/FirstCome_spec.v
theories/Format.v
theories/Format_proofs.v
theories/Format_props.v
theories/Format_spec.v
theories/Fractions.v
theories/Fractions_proofs.v
theories/Fractions_props.v
theories/Fractions_spec.v
theories/IdMap.v
theories/IdMap_proofs.v
theories/IdMap_spec.v
theories/Identity.v
theories/Identity_proofs.v
theories/Identity_props.v
theories/Identity_spec.v
theories/ImpactSessions.v
theories/ImpactSessions_proofs.v
theories/ImpactSessions_proofs2.v
theories/ImpactSessions_props.v
theories/ImpactSessions_spec.v
theories/Interval.v
theories/Interval_proofs.v
theories/Interval_props.v
theories/Interval_spec.v
theories/Inventory.v
theories/Inventory_proofs.v
theories/Inventory_props.v
theories/Inventory_spec.v
theories/Isolation_proofs.v
theories/Isolation_props.v
theories/Isolation_spec.v
theories/KnownRound_proofs.v
theories/LegalEntity.v
theories/LegalEntity_proofs.v
theories/LegalEntity_props.v
theories/Markets.v
theories/Markets_proofs.v
theories/Markets_props.v
theories/Markets_spec.v
theories/MatchingEngine.v
theories/MatchingEngine_proofs.v
theories/MatchingEngine_props.v
theories/MatchingEngine_spec.v
theories/Messages.v
theories/Messages_props.v
theories/Messages_spec.v
theories/Money.v
theories/Money_proofs.v
theories/Money_props.v
theories/Money_spec.v
theories/Multimap.v
theories/Multimap_proofs.v
theories/Multimap_spec.v
theories/OrderLog.v
theories/OrderLog_props.v
theories/OrderLog_spec.v
theories/Outputs.v
theories/Outputs_proofs.v
theories/Outputs_props.v
theories/Outputs_spec.v
theories/Outsiders_props.v
theories/Ownership.v
theories/Ownership_proofs.v
theories/Ownership_props.v
theories/Ownership_spec.v
theories/Parametrization.v
theories/Parametrization_props.v
theories/Persons.v
theories/Persons_proofs.v
theories/Persons_props.v
theories/Platform_proofs.v
theories/Platform_props.v
theories/Platform_spec.v
theories/PoolCopies.v
theories/PoolCopies_proofs.v
theories/PoolCopies_props.v
theories/PoolTasks_proofs.v
theories/PoolTasks_props.v
theories/PoolTasks_spec.v
theories/Population.v
theories/Population_proofs.v
theories/Population_proofs2.v
theories/Population_proofs3.v
theories/Population_props.v
theories/Population_spec.v
theories/Prices.v
theories/Prices_proofs.v
theories/Prices_props.v
theories/Punctual_proofs.v
theories/Punctual_props.v
theories/Punctual_spec.v
theories/Quantity.v
theories/Quantity_proofs.v
theories/Quantity_props.v
theories/Quantity_spec.v
theories/Quoting.v
theories/Quoting_proofs.v
theories/Quoting_props.v
theories/Quoting_spec.v
theories/Races.v
theories/Races_proofs.v
theories/Races_props.v
theories/Races_spec.v
theories/Randomness.v
theories/Randomness_proofs.v
theories/Randomness_props.v
theories/Randomness_spec.v
theories/Rates.v
theories/Rates_proofs.v
theories/Rates_props.v
theories/Rates_spec.v
theories/Rounding_proofs.v
theories/Sampler.v
theories/Sampler_proofs.v
theories/Sampler_props.v
theories/Sampler_spec.v
theories/Sessions.v
theories/Sessions_proofs.v
theories/Sessions_proofs2.v
theories/Sessions_proofs3.v
theories/Sessions_props.v
theories/Sessions_spec.v
theories/SeveralTrades_proofs.v
theories/SeveralTrades_props.v
theories/SeveralTrades_spec.v
theories/Simulation.v
theories/Simulation_proofs.v
theories/Simulation_proofs2.v
theories/Simulation_proofs3.v
theories/Simulation_props.v
theories/Simulation_spec.v
theories/StaticBook.v
theories/StaticBook_proofs.v
theories/StaticBook_props.v
theories/StaticBook_spec.v
theories/StaticMatch_more.v
theories/StaticMatch_proofs.v
theories/StaticMatch_props.v
theories/StaticMatch_spec.v
theories/StaticTicks.v
theories/StaticTicks_proofs.v
theories/StaticTicks_props.v
theories/Streams.v
theories/Streams_proofs.v
theories/Streams_proofs2.v
theories/Streams_proofs3.v
theories/Streams_props.v
theories/Streams_spec.v
theories/Tatonnement.v
theories/Tatonnement_proofs.v
theories/Tatonnement_props.v
theories/Tatonnement_spec.v
theories/Text.v
theories/ThreadPool.v
theories/ThreadPool_proofs.v
theories/ThreadPool_props.v
theories/ThreadPool_spec.v
theories/Threads.v
theories/Threads_props.v
theories/Ticks_proofs.v
theories/TransferCodes.v
theories/TwoBooks_proofs.v
theories/TwoBooks_props.v
theories/TwoBooks_spec.v
theories/Walras.v
theories/Walras_proofs.v
theories/Walras_props.v
theories/Walras_spec.v
