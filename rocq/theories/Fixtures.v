(** A concrete market used in the examples that sit beside the theorems: two
    regions, a generator, a load, a bidirectional unit, an interconnector with a
    loss model and several constraint sets. *)

From Coq Require Import QArith String List Bool ZArith.
Import ListNotations.
From Verif Require Import PandasModel TablesModel MarketModel.
Open Scope string_scope.
Open Scope list_scope.

Definition fx_config : config :=
  Config ["NSW"; "VIC"]
    [UnitInfo "A" "NSW" "generator" (9#10); UnitInfo "B" "VIC" "generator" 1;
     UnitInfo "L" "NSW" "load" 1;
     UnitInfo "S" "VIC" "generator" 1; UnitInfo "S" "VIC" "load" 1] 5.

Definition fx_two (a b : Q) : string -> Q := fun s => if String.eqb s "1" then a else b.

Definition fx_volumes : bid_table :=
  BidTable ["1"; "2"]
    [BidRow "A" "energy" "generator" (fx_two 20 50); BidRow "B" "energy" "generator" (fx_two 30 40);
     BidRow "A" "raise_reg" "generator" (fx_two 5 0); BidRow "B" "raise_6s" "generator" (fx_two 5 5);
     BidRow "L" "energy" "load" (fx_two 10 0);
     BidRow "S" "energy" "generator" (fx_two 15 0); BidRow "S" "energy" "load" (fx_two 15 0)].
Definition fx_prices : bid_table :=
  BidTable ["1"; "2"]
    [BidRow "A" "energy" "generator" (fx_two 50 60); BidRow "B" "energy" "generator" (fx_two 50 55);
     BidRow "A" "raise_reg" "generator" (fx_two 5 6); BidRow "B" "raise_6s" "generator" (fx_two 1 2);
     BidRow "L" "energy" "load" (fx_two 100 90);
     BidRow "S" "energy" "generator" (fx_two 300 310); BidRow "S" "energy" "load" (fx_two 20 10)].

Definition fx_demand : list demand_row := [Demand "NSW" 40; Demand "VIC" 20].
Definition fx_inter : list inter_row := [Inter "VNI" "VNI" "NSW" "VIC" 50 (-50) 1 1 1].
Definition fx_loss : list lossfn_row := [LossFn "VNI" "VNI" (1#2) (fun f => f * f / 1000)].
Definition fx_points : list bp_row :=
  [Bp "VNI" "VNI" 1 (-50); Bp "VNI" "VNI" 2 0; Bp "VNI" "VNI" 3 50].

Definition fx_ops : list op :=
  [OpVolumeBids fx_volumes; OpPriceBids fx_prices;
   OpCapacity [Limit "A" "generator" 60; Limit "S" "load" 12] None;
   OpDemand fx_demand (Some (VNum 14000));
   OpInterconnectors fx_inter; OpLosses fx_loss fx_points;
   OpGeneric [Generic "SET1" "<=" 45] (Some (VNum 1000));
   OpLinkUnits [GUnit "SET1" "A" "energy" 1]; OpLinkInters [GInter "SET1" "VNI" 1];
   OpFcasReq [FcasReq "R" "NSW" "raise_reg" 3 ">="] None;
   OpDemand [Demand "TAS" 40] None;  (* fails: unknown region *)
   OpCapacity [Limit "A" "generator" 65; Limit "S" "load" 12] (Some (VNum 2000))].

(** A second market with every kind of constraint set and without violation
    costs (except for the tie break).  F is a fast start unit, S is bidirectional. *)
Definition gx_config : config :=
  Config ["NSW"; "VIC"]
    [UnitInfo "A" "NSW" "generator" (19#20); UnitInfo "B" "VIC" "generator" 1;
     UnitInfo "F" "NSW" "generator" 1; UnitInfo "L" "NSW" "load" 1;
     UnitInfo "S" "VIC" "generator" 1; UnitInfo "S" "VIC" "load" 1; UnitInfo "W" "VIC" "generator" 1] 5.

Definition gx_volumes : bid_table :=
  BidTable ["1"; "2"]
    [BidRow "A" "energy" "generator" (fx_two 100 50); BidRow "A" "raise_reg" "generator" (fx_two 10 0);
     BidRow "A" "lower_reg" "generator" (fx_two 10 0); BidRow "A" "raise_6s" "generator" (fx_two 10 0);
     BidRow "B" "energy" "generator" (fx_two 60 60);
     BidRow "F" "energy" "generator" (fx_two 10 10);
     BidRow "L" "energy" "load" (fx_two 30 0); BidRow "L" "raise_reg" "load" (fx_two 5 0);
     BidRow "S" "energy" "generator" (fx_two 20 0); BidRow "S" "energy" "load" (fx_two 20 0);
     BidRow "S" "raise_reg" "generator" (fx_two 5 0); BidRow "S" "raise_reg" "load" (fx_two 5 0);
     BidRow "S" "lower_reg" "generator" (fx_two 5 0); BidRow "S" "lower_reg" "load" (fx_two 5 0);
     BidRow "W" "energy" "generator" (fx_two 40 0)].
Definition gx_prices : bid_table :=
  BidTable ["1"; "2"]
    [BidRow "A" "energy" "generator" (fx_two 50 60); BidRow "A" "raise_reg" "generator" (fx_two 1 2);
     BidRow "A" "lower_reg" "generator" (fx_two 1 2); BidRow "A" "raise_6s" "generator" (fx_two 1 2);
     BidRow "B" "energy" "generator" (fx_two 30 45);
     BidRow "F" "energy" "generator" (fx_two 70 80);
     BidRow "L" "energy" "load" (fx_two 100 0); BidRow "L" "raise_reg" "load" (fx_two 3 0);
     BidRow "S" "energy" "generator" (fx_two 90 0); BidRow "S" "energy" "load" (fx_two 40 0);
     BidRow "S" "raise_reg" "generator" (fx_two 2 0); BidRow "S" "raise_reg" "load" (fx_two 2 0);
     BidRow "S" "lower_reg" "generator" (fx_two 2 0); BidRow "S" "lower_reg" "load" (fx_two 2 0);
     BidRow "W" "energy" "generator" (fx_two 30 0)].

Definition gx_limits : list limit_row := [Limit "A" "generator" 120; Limit "S" "load" 15].
Definition gx_forecast : list uigf_row := [Uigf "W" 25].
Definition gx_ramp : ramp_table :=
  RampTable false false
    (map (fun r => RampIn r None None)
      [Ramp "A" "generator" 80 240 240; Ramp "L" "load" 20 120 120;
       Ramp "S" "generator" (-3) 60 60; Ramp "S" "load" (-3) 120 48]).
Definition gx_scada : scada_table := ScadaTable true false [Scada "A" (Some 180) None; Scada "L" None None].
Definition gx_profile : list fs_row := [Fs "F" 2 3 6 10 10].
Definition gx_demand : list demand_row := [Demand "NSW" 90; Demand "VIC" 70].
Definition gx_fcas : list fcas_req_row :=
  [FcasReq "RREG" "NSW" "raise_reg" 8 ">="; FcasReq "RREG" "VIC" "raise_reg" 8 ">="].
Definition gx_avail : list max_avail_row :=
  [MaxAvail "A" "raise_6s" "generator" 8; MaxAvail "A" "raise_reg" "generator" 10].
Definition gx_reg : list reg_ramp_row :=
  [RegRamp "A" 80 240 240; RegRamp "L" 20 120 120; RegRamp "S" (-3) 60 60].
Definition gx_contingency : list trap_row := [Trap "A" "raise_6s" "generator" 8 20 40 90 110].
Definition gx_regulation : list trap_row := [Trap "A" "raise_reg" "generator" 10 20 30 90 100].
Definition gx_inter : list inter_row := [Inter "VNI" "VNI" "NSW" "VIC" 50 (-50) 1 1 1].
Definition gx_loss : list lossfn_row := [LossFn "VNI" "VNI" (1#2) (fun f => f * f / 1000)].
Definition gx_points : list bp_row :=
  [Bp "VNI" "VNI" 1 (-50); Bp "VNI" "VNI" 2 0; Bp "VNI" "VNI" 3 25; Bp "VNI" "VNI" 4 50].
Definition gx_generic : list generic_row := [Generic "G1" "<=" 250].

Definition gx_ops : list op :=
  [OpVolumeBids gx_volumes; OpPriceBids gx_prices;
   OpCapacity gx_limits None; OpUigf gx_forecast None;
   OpRamp gx_ramp (Some gx_scada) None "no_fast_start_units" None;
   OpFastStart gx_profile None;
   OpDemand gx_demand None; OpFcasReq gx_fcas None; OpMaxAvail gx_avail None;
   OpJointRamping gx_reg None "no_fast_start_units" None;
   OpJointCapacity gx_contingency None; OpEnergyReg gx_regulation None;
   OpInterconnectors gx_inter; OpLosses gx_loss gx_points;
   OpGeneric gx_generic None;
   OpLinkUnits [GUnit "G1" "A" "energy" 1; GUnit "G1" "S" "energy" 2];
   OpLinkRegions [GRegion "G1" "VIC" "energy" (1#2)]; OpLinkInters [GInter "G1" "VNI" 3];
   OpTieBreak (VNum 1)].

(** A feasible dispatch of that market, by variable id. *)
Definition gx_dispatch : list Q :=
  [1285#16; 4; 0; 5; 0; 60; 197#16; 5; 0; 20; 2; 0; 2; 2; 1; 0; 1; 25; 25; 5#8; 0; 0; 1; 0; 3#8; 0].
