(** * The unit systems written in /repo, as tokens

    Generated by /verif/tools_tokenize.py from the [unit_system!] invocations in /repo; comments are
    dropped, [_] in literals removed. *)
From Coq Require Import String Ascii List ZArith.
From Verif Require Import Parse.
Import ListNotations.
Local Open Scope string_scope.
Local Open Scope list_scope.
Local Notation I s := (TIdent s).
Local Notation P c := (TPunct c).
Local Notation N n := (TLit (LInt n)).
Local Notation F d k := (TLit (LFloat d k)).
Local Notation G d ts := (TGroup d ts).

(** src/si.rs:3-318. *)
Definition si_source : list tok := [
  I "quantity_type"; I "Quantity"; P ";";
  I "dimension_type"; I "Dimension"; P ";";
  I "dimension"; I "Length"; P ";";
  I "dimension"; I "Time"; P ";";
  I "dimension"; I "Mass"; P ";";
  I "dimension"; I "Temperature"; P ";";
  I "dimension"; I "Current"; P ";";
  I "dimension"; I "AmountOfSubstance"; P ";";
  I "dimension"; I "LuminousIntensity"; P ";";
  I "dimension"; I "Dimensionless"; P "="; N 1; P ";";
  I "dimension"; I "Angle"; P "="; N 1; P ";";
  I "dimension"; I "SolidAngle"; P "="; I "Angle"; P "^"; N 2; P ";";
  I "dimension"; I "Area"; P "="; I "Length"; P "^"; N 2; P ";";
  I "dimension"; I "Volume"; P "="; I "Length"; P "^"; N 3; P ";";
  I "dimension"; I "Wavenumber"; P "="; N 1; P "/"; I "Length"; P ";";
  I "dimension"; I "Frequency"; P "="; N 1; P "/"; I "Time"; P ";";
  I "dimension"; I "Velocity"; P "="; I "Length"; P "/"; I "Time"; P ";";
  I "dimension"; I "Acceleration"; P "="; I "Length"; P "/"; I "Time"; P "^"; N 2; P ";";
  I "dimension"; I "Jerk"; P "="; I "Length"; P "/"; I "Time"; P "^"; N 3; P ";";
  I "dimension"; I "FlowRate"; P "="; I "Volume"; P "/"; I "Time"; P ";";
  I "dimension"; I "Momentum"; P "="; I "Mass"; P "*"; I "Velocity"; P ";";
  I "dimension"; I "Force"; P "="; I "Mass"; P "*"; I "Acceleration"; P ";";
  I "dimension"; I "Energy"; P "="; I "Momentum"; P "^"; N 2; P "/"; I "Mass"; P ";";
  I "dimension"; I "Power"; P "="; I "Energy"; P "/"; I "Time"; P ";";
  I "dimension"; I "Pressure"; P "="; I "Force"; P "/"; I "Area"; P ";";
  I "dimension"; I "Action"; P "="; I "Energy"; P "*"; I "Time"; P ";";
  I "dimension"; I "MassDensity"; P "="; I "Mass"; P "/"; I "Length"; P "^"; N 3; P ";";
  I "dimension"; I "MomentOfInertia"; P "="; I "Mass"; P "*"; I "Length"; P "^"; N 2; P "/"; I "Angle";
  P "^"; N 2; P ";";
  I "dimension"; I "AngularMomentum"; P "="; I "MomentOfInertia"; P "*"; I "Angle"; P "/"; I "Time";
  P ";";
  I "dimension"; I "Torque"; P "="; I "Length"; P "*"; I "Force"; P "/"; I "Angle"; P ";";
  I "dimension"; I "EnergyDensity"; P "="; I "Energy"; P "/"; I "Volume"; P ";";
  I "dimension"; I "MassFlow"; P "="; I "Mass"; P "/"; I "Time"; P ";";
  I "dimension"; I "ElectricCharge"; P "="; I "Current"; P "*"; I "Time"; P ";";
  I "dimension"; I "Voltage"; P "="; I "Energy"; P "/"; I "ElectricCharge"; P ";";
  I "dimension"; I "Capacitance"; P "="; I "ElectricCharge"; P "/"; I "Voltage"; P ";";
  I "dimension"; I "ElectricResistance"; P "="; I "Voltage"; P "/"; I "Current"; P ";";
  I "dimension"; I "Resistivity"; P "="; I "ElectricResistance"; P "*"; I "Length"; P ";";
  I "dimension"; I "ElectricConductance"; P "="; N 1; P "/"; I "ElectricResistance"; P ";";
  I "dimension"; I "Conductivity"; P "="; I "ElectricConductance"; P "/"; I "Length"; P ";";
  I "dimension"; I "MagneticFluxDensity"; P "="; I "Force"; P "/"; G DParen [I "ElectricCharge"; P "*"; I "Velocity"];
  P ";";
  I "dimension"; I "MagneticFlux"; P "="; I "MagneticFluxDensity"; P "*"; I "Area"; P ";";
  I "dimension"; I "MagneticFieldStrength"; P "="; I "Current"; P "/"; I "Length"; P ";";
  I "dimension"; I "Inductance"; P "="; I "MagneticFlux"; P "/"; I "Current"; P ";";
  I "dimension"; I "ElectricChargeDensity"; P "="; I "ElectricCharge"; P "/"; I "Volume"; P ";";
  I "dimension"; I "CurrentDensity"; P "="; I "Current"; P "/"; I "Area"; P ";";
  I "dimension"; I "ElectricDipoleMoment"; P "="; I "ElectricCharge"; P "*"; I "Length"; P ";";
  I "dimension"; I "ElectricQuadrupoleMoment"; P "="; I "ElectricCharge"; P "*"; I "Length"; P "^";
  N 2; P ";";
  I "dimension"; I "MagneticDipoleMoment"; P "="; I "Current"; P "*"; I "Area"; P ";";
  I "dimension"; I "ElectricFieldStrength"; P "="; I "Voltage"; P "/"; I "Length"; P ";";
  I "dimension"; I "ElectricDisplacementFieldStrength"; P "="; I "ElectricCharge"; P "/"; I "Area";
  P ";";
  I "dimension"; I "ElectricPermittivity"; P "="; I "Time"; P "^"; N 4; P "*"; I "Current"; P "^";
  N 2; P "/"; I "Mass"; P "/"; I "Length"; P "^"; N 3; P "*"; I "Angle"; P ";";
  I "dimension"; I "MagneticPermeability"; P "="; I "Length"; P "*"; I "Mass"; P "/"; I "Time";
  P "^"; N 2; P "/"; I "Current"; P "^"; N 2; P "/"; I "Angle"; P ";";
  I "dimension"; I "Polarizability"; P "="; I "ElectricDipoleMoment"; P "/"; I "ElectricFieldStrength";
  P ";";
  I "dimension"; I "ElectricMobility"; P "="; I "Velocity"; P "/"; I "ElectricFieldStrength";
  P ";";
  I "dimension"; I "Entropy"; P "="; I "Energy"; P "/"; I "Temperature"; P ";";
  I "dimension"; I "HeatCapacity"; P "="; I "Energy"; P "/"; I "Temperature"; P ";";
  I "dimension"; I "SpecificHeatCapacity"; P "="; I "HeatCapacity"; P "/"; I "Mass"; P ";";
  I "dimension"; I "ThermalConductivity"; P "="; I "Power"; P "/"; G DParen [I "Length"; P "*"; I "Temperature"];
  P ";";
  I "dimension"; I "ThermalTransmittance"; P "="; I "Power"; P "/"; G DParen [I "Length"; P "^"; N 2; P "*"; I "Temperature"];
  P ";";
  I "dimension"; I "MolarMass"; P "="; I "Mass"; P "/"; I "AmountOfSubstance"; P ";";
  I "dimension"; I "MolarVolume"; P "="; I "Volume"; P "/"; I "AmountOfSubstance"; P ";";
  I "dimension"; I "CatalyticActivity"; P "="; I "AmountOfSubstance"; P "/"; I "Time"; P ";";
  I "dimension"; I "Molarity"; P "="; I "AmountOfSubstance"; P "/"; I "Volume"; P ";";
  I "dimension"; I "Molality"; P "="; I "AmountOfSubstance"; P "/"; I "Mass"; P ";";
  I "dimension"; I "ChemicalPotential"; P "="; I "Energy"; P "/"; I "AmountOfSubstance"; P ";";
  I "dimension"; I "MolarHeatCapacity"; P "="; I "HeatCapacity"; P "/"; I "AmountOfSubstance";
  P ";";
  I "dimension"; I "LuminousFlux"; P "="; I "LuminousIntensity"; P "*"; I "Angle"; P "^"; N 2;
  P ";";
  I "dimension"; I "Illuminance"; P "="; I "LuminousFlux"; P "/"; I "Area"; P ";";
  I "dimension"; I "Irradiance"; P "="; I "Power"; P "/"; I "Area"; P ";";
  I "dimension"; I "Activity"; P "="; N 1; P "/"; I "Time"; P ";";
  I "dimension"; I "AbsorbedDose"; P "="; I "Energy"; P "/"; I "Mass"; P ";";
  I "dimension"; I "EquivalentDose"; P "="; I "Energy"; P "/"; I "Mass"; P ";";
  I "dimension"; I "SpecificActivity"; P "="; I "Activity"; P "/"; I "Mass"; P ";";
  I "dimension"; I "DynamicViscosity"; P "="; I "Pressure"; P "*"; I "Time"; P ";";
  I "dimension"; I "KinematicViscosity"; P "="; I "Length"; P "^"; N 2; P "/"; I "Time"; P ";";
  I "dimension"; I "MomentumDensity"; P "="; I "Momentum"; P "/"; I "Volume"; P ";";
  I "dimension"; I "SpecificEnergy"; P "="; I "Energy"; P "/"; I "Mass"; P ";";
  I "dimension"; I "MassFlux"; P "="; I "Mass"; P "/"; G DParen [I "Area"; P "*"; I "Time"]; P ";";
  I "dimension"; I "EnergyFlux"; P "="; I "Power"; P "/"; I "Area"; P ";";
  P "#"; G DBracket [I "metric_prefixes"]; P "#"; G DBracket [I "symbol"; G DParen [I "m"]]; P "#";
  G DBracket [I "alias"; G DParen [I "metre"; P ","; I "metres"; P ","; I "meters"]]; P "#"; G DBracket [I "base"; G DParen [I "Length"]];
  I "unit"; I "meter"; P ":"; I "Length"; P ";";
  P "#"; G DBracket [I "metric_prefixes"]; P "#"; G DBracket [I "symbol"; G DParen [I "s"]]; P "#";
  G DBracket [I "alias"; G DParen [I "seconds"]]; P "#"; G DBracket [I "base"; G DParen [I "Time"]];
  I "unit"; I "second"; P ":"; I "Time"; P ";";
  P "#"; G DBracket [I "alias"; G DParen [I "kilograms"]]; P "#"; G DBracket [I "base"; G DParen [I "Mass"]];
  P "#"; G DBracket [I "symbol"; G DParen [I "kg"]]; I "unit"; I "kilogram"; P ":"; I "Mass";
  P ";";
  P "#"; G DBracket [I "metric_prefixes"; G DParen [I "skip"; P ":"; I "kilo"]]; P "#"; G DBracket [I "symbol"; G DParen [I "g"]];
  P "#"; G DBracket [I "alias"; G DParen [I "grams"]]; I "unit"; I "gram"; P ":"; I "Mass"; P "=";
  F 10 (-4); P "*"; I "kilogram"; P ";";
  P "#"; G DBracket [I "metric_prefixes"]; P "#"; G DBracket [I "symbol"; G DParen [I "A"]]; P "#";
  G DBracket [I "alias"; G DParen [I "amperes"]]; P "#"; G DBracket [I "base"; G DParen [I "Current"]];
  I "unit"; I "ampere"; P ":"; I "Current"; P ";";
  P "#"; G DBracket [I "metric_prefixes"]; P "#"; G DBracket [I "symbol"; G DParen [I "K"]]; P "#";
  G DBracket [I "alias"; G DParen [I "kelvins"]]; P "#"; G DBracket [I "base"; G DParen [I "Temperature"]];
  I "unit"; I "kelvin"; P ":"; I "Temperature"; P ";";
  P "#"; G DBracket [I "metric_prefixes"]; P "#"; G DBracket [I "symbol"; G DParen [I "mol"]];
  P "#"; G DBracket [I "alias"; G DParen [I "moles"]]; P "#"; G DBracket [I "base"; G DParen [I "AmountOfSubstance"]];
  I "unit"; I "mole"; P ":"; I "AmountOfSubstance"; P ";";
  P "#"; G DBracket [I "metric_prefixes"]; P "#"; G DBracket [I "symbol"; G DParen [I "cd"]];
  P "#"; G DBracket [I "alias"; G DParen [I "candelas"]]; P "#"; G DBracket [I "base"; G DParen [I "LuminousIntensity"]];
  I "unit"; I "candela"; P ":"; I "LuminousIntensity"; P ";";
  P "#"; G DBracket [I "metric_prefixes"]; P "#"; G DBracket [I "symbol"; G DParen [I "rad"]];
  P "#"; G DBracket [I "alias"; G DParen [I "radians"]]; I "unit"; I "radian"; P ":"; I "Angle";
  P "="; I "meter"; P "/"; I "meter"; P ";";
  P "#"; G DBracket [I "metric_prefixes"]; P "#"; G DBracket [I "symbol"; G DParen [I "sr"]];
  P "#"; G DBracket [I "alias"; G DParen [I "steradians"]]; I "unit"; I "steradian"; P ":"; I "SolidAngle";
  P "="; I "radian"; P "^"; N 2; P ";";
  P "#"; G DBracket [I "metric_prefixes"]; P "#"; G DBracket [I "symbol"; G DParen [I "Hz"]];
  I "unit"; I "hertz"; P ":"; I "Frequency"; P "="; N 1; P "/"; I "second"; P ";";
  P "#"; G DBracket [I "metric_prefixes"]; P "#"; G DBracket [I "symbol"; G DParen [I "N"]]; P "#";
  G DBracket [I "alias"; G DParen [I "newtons"]]; I "unit"; I "newton"; P ":"; I "Force"; P "=";
  I "kilogram"; I "meter"; P "/"; I "second"; P "^"; N 2; P ";";
  P "#"; G DBracket [I "metric_prefixes"]; P "#"; G DBracket [I "symbol"; G DParen [I "Pa"]];
  P "#"; G DBracket [I "alias"; G DParen [I "pascals"]]; I "unit"; I "pascal"; P ":"; I "Pressure";
  P "="; I "newton"; P "/"; I "meter"; P "^"; N 2; P ";";
  P "#"; G DBracket [I "metric_prefixes"]; P "#"; G DBracket [I "symbol"; G DParen [I "J"]]; P "#";
  G DBracket [I "alias"; G DParen [I "joules"]]; I "unit"; I "joule"; P ":"; I "Energy"; P "=";
  I "newton"; I "meter"; P ";";
  P "#"; G DBracket [I "metric_prefixes"]; P "#"; G DBracket [I "symbol"; G DParen [I "W"]]; P "#";
  G DBracket [I "alias"; G DParen [I "watts"]]; I "unit"; I "watt"; P ":"; I "Power"; P "="; I "joule";
  P "/"; I "second"; P ";";
  P "#"; G DBracket [I "metric_prefixes"]; P "#"; G DBracket [I "symbol"; G DParen [I "C"]]; P "#";
  G DBracket [I "alias"; G DParen [I "coulombs"]]; I "unit"; I "coulomb"; P ":"; I "ElectricCharge";
  P "="; I "ampere"; I "second"; P ";";
  P "#"; G DBracket [I "metric_prefixes"]; P "#"; G DBracket [I "symbol"; G DParen [I "V"]]; P "#";
  G DBracket [I "alias"; G DParen [I "volts"]]; I "unit"; I "volt"; P ":"; I "Voltage"; P "=";
  I "kilogram"; I "meter"; P "^"; N 2; P "/"; G DParen [I "second"; P "^"; N 3; I "ampere"]; P ";";
  P "#"; G DBracket [I "metric_prefixes"]; P "#"; G DBracket [I "symbol"; G DParen [I "F"]]; P "#";
  G DBracket [I "alias"; G DParen [I "farads"]]; I "unit"; I "farad"; P ":"; I "Capacitance";
  P "="; I "coulomb"; P "/"; I "volt"; P ";";
  P "#"; G DBracket [I "metric_prefixes"]; P "#"; G DBracket [I "symbol"; G DParen [I (String "206" (String "169" ""))]];
  P "#"; G DBracket [I "alias"; G DParen [I "ohms"]]; I "unit"; I "ohm"; P ":"; I "ElectricResistance";
  P "="; I "volt"; P "/"; I "ampere"; P ";";
  P "#"; G DBracket [I "metric_prefixes"]; P "#"; G DBracket [I "symbol"; G DParen [I "S"]]; I "unit";
  I "siemens"; P ":"; I "ElectricConductance"; P "="; N 1; P "/"; I "ohm"; P ";";
  P "#"; G DBracket [I "metric_prefixes"]; P "#"; G DBracket [I "symbol"; G DParen [I "Wb"]];
  P "#"; G DBracket [I "alias"; G DParen [I "webers"]]; I "unit"; I "weber"; P ":"; I "MagneticFlux";
  P "="; I "volt"; I "second"; P ";";
  P "#"; G DBracket [I "metric_prefixes"]; P "#"; G DBracket [I "symbol"; G DParen [I "T"]]; P "#";
  G DBracket [I "alias"; G DParen [I "teslas"]]; I "unit"; I "tesla"; P ":"; I "MagneticFluxDensity";
  P "="; I "weber"; P "/"; I "meter"; P "^"; N 2; P ";";
  P "#"; G DBracket [I "metric_prefixes"]; P "#"; G DBracket [I "symbol"; G DParen [I "H"]]; P "#";
  G DBracket [I "alias"; G DParen [I "henrys"]]; I "unit"; I "henry"; P ":"; I "Inductance"; P "=";
  I "weber"; P "/"; I "ampere"; P ";";
  P "#"; G DBracket [I "metric_prefixes"]; P "#"; G DBracket [I "symbol"; G DParen [I "lm"]];
  P "#"; G DBracket [I "alias"; G DParen [I "lumens"]]; I "unit"; I "lumen"; P ":"; I "LuminousFlux";
  P "="; I "candela"; I "steradian"; P ";";
  P "#"; G DBracket [I "metric_prefixes"]; P "#"; G DBracket [I "symbol"; G DParen [I "lx"]];
  I "unit"; I "lux"; P ":"; I "Illuminance"; P "="; I "lumen"; P "/"; I "meter"; P "^"; N 2; P ";";
  P "#"; G DBracket [I "metric_prefixes"]; P "#"; G DBracket [I "symbol"; G DParen [I "Bq"]];
  P "#"; G DBracket [I "alias"; G DParen [I "becquerels"]]; I "unit"; I "becquerel"; P ":"; I "Activity";
  P "="; N 1; P "/"; I "second"; P ";";
  P "#"; G DBracket [I "metric_prefixes"]; P "#"; G DBracket [I "symbol"; G DParen [I "Gy"]];
  P "#"; G DBracket [I "alias"; G DParen [I "grays"]]; I "unit"; I "gray"; P ":"; I "AbsorbedDose";
  P "="; I "joule"; P "/"; I "kilogram"; P ";";
  P "#"; G DBracket [I "metric_prefixes"]; P "#"; G DBracket [I "symbol"; G DParen [I "Sv"]];
  P "#"; G DBracket [I "alias"; G DParen [I "sieverts"]]; I "unit"; I "sievert"; P ":"; I "EquivalentDose";
  P "="; I "joule"; P "/"; I "kilogram"; P ";";
  P "#"; G DBracket [I "metric_prefixes"]; P "#"; G DBracket [I "symbol"; G DParen [I "kat"]];
  P "#"; G DBracket [I "alias"; G DParen [I "katals"]]; I "unit"; I "katal"; P ":"; I "CatalyticActivity";
  P "="; I "mole"; P "/"; I "second"; P ";";
  P "#"; G DBracket [I "symbol"; G DParen [I "min"]]; P "#"; G DBracket [I "alias"; G DParen [I "minutes"]];
  I "unit"; I "minute"; P ":"; I "Time"; P "="; N 60; I "second"; P ";";
  P "#"; G DBracket [I "symbol"; G DParen [I "h"]]; P "#"; G DBracket [I "alias"; G DParen [I "hours"]];
  I "unit"; I "hour"; P ":"; I "Time"; P "="; N 60; I "minute"; P ";";
  P "#"; G DBracket [I "symbol"; G DParen [I "day"]]; P "#"; G DBracket [I "alias"; G DParen [I "days"]];
  I "unit"; I "day"; P ":"; I "Time"; P "="; N 24; I "hour"; P ";";
  P "#"; G DBracket [I "symbol"; G DParen [I "au"]]; P "#"; G DBracket [I "alias"; G DParen [I "astronomicalunits"]];
  I "unit"; I "astronomicalunit"; P ":"; I "Length"; P "="; N 149597870700; I "meter"; P ";";
  I "constant"; I "PI"; P "="; F 3141592653589793 (-15); P ";";
  P "#"; G DBracket [I "symbol"; G DParen [I "deg"]]; P "#"; G DBracket [I "alias"; G DParen [I "degrees"]];
  I "unit"; I "degree"; P ":"; I "Angle"; P "="; I "PI"; P "/"; N 180; P "*"; I "radian"; P ";";
  P "#"; G DBracket [I "alias"; G DParen [I "arcminutes"]]; I "unit"; I "arcminute"; P ":"; I "Angle";
  P "="; N 1; P "/"; N 60; P "*"; I "degree"; P ";";
  P "#"; G DBracket [I "alias"; G DParen [I "arcseconds"]]; I "unit"; I "arcsecond"; P ":"; I "Angle";
  P "="; N 1; P "/"; N 60; P "*"; I "arcminute"; P ";";
  P "#"; G DBracket [I "alias"; G DParen [I "ares"]]; I "unit"; I "are"; P ":"; I "Area"; P "=";
  N 100; I "meter"; P "^"; N 2; P ";";
  P "#"; G DBracket [I "symbol"; G DParen [I "ha"]]; P "#"; G DBracket [I "alias"; G DParen [I "hectares"]];
  I "unit"; I "hectare"; P ":"; I "Area"; P "="; N 100; I "are"; P ";";
  P "#"; G DBracket [I "metric_prefixes"]; P "#"; G DBracket [I "symbol"; G DParen [I "l"]]; P "#";
  G DBracket [I "alias"; G DParen [I "litres"]]; I "unit"; I "litre"; P ":"; I "Volume"; P "=";
  I "decimeter"; P "^"; N 3; P ";";
  P "#"; G DBracket [I "metric_prefixes"]; P "#"; G DBracket [I "alias"; G DParen [I "tonnes"]];
  I "unit"; I "tonne"; P ":"; I "Mass"; P "="; N 10; P "^"; N 3; I "kilogram"; P ";";
  P "#"; G DBracket [I "symbol"; G DParen [I "Da"]]; P "#"; G DBracket [I "alias"; G DParen [I "daltons"]];
  I "unit"; I "dalton"; P ":"; I "Mass"; P "="; F 166053906660 (-38); I "kilogram"; P ";";
  P "#"; G DBracket [I "metric_prefixes"]; P "#"; G DBracket [I "symbol"; G DParen [I "eV"]];
  P "#"; G DBracket [I "alias"; G DParen [I "electronvolts"]]; I "unit"; I "electronvolt"; P ":";
  I "Energy"; P "="; F 1602176634 (-28); I "joule"; P ";";
  P "#"; G DBracket [I "metric_prefixes"]; P "#"; G DBracket [I "alias"; G DParen [I "joules_per_kilogram"]];
  I "unit"; I "joule_per_kilogram"; P ":"; I "SpecificEnergy"; P "="; I "joule"; P "/"; I "kilogram";
  P ";";
  P "#"; G DBracket [I "metric_prefixes"]; P "#"; G DBracket [I "alias"; G DParen [I "joules_per_kilogram_kelvin"]];
  I "unit"; I "joule_per_kilogram_kelvin"; P ":"; I "SpecificHeatCapacity"; P "="; I "joule_per_kilogram";
  P "/"; I "kelvin"; P ";";
  P "#"; G DBracket [I "metric_prefixes"]; P "#"; G DBracket [I "alias"; G DParen [I "meters_per_second"]];
  I "unit"; I "meter_per_second"; P ":"; I "Velocity"; P "="; I "meter"; P "/"; I "second"; P ";";
  P "#"; G DBracket [I "alias"; G DParen [I "square_metre"; P ","; I "square_meters"; P ","; I "square_metres"]];
  I "unit"; I "square_meter"; P ":"; I "Area"; P "="; I "meter"; P "^"; N 2; P ";";
  P "#"; G DBracket [I "alias"; G DParen [I "cubic_metre"; P ","; I "cubic_meters"; P ","; I "cubic_metres"]];
  I "unit"; I "cubic_meter"; P ":"; I "Volume"; P "="; I "meter"; P "^"; N 3; P ";"].

(** tests/example_system/mod.rs:3-41. *)
Definition example_source : list tok := [
  I "quantity_type"; I "Quantity"; P ";";
  I "dimension_type"; I "Dimension"; P ";";
  I "dimension"; I "Length"; P ";";
  I "dimension"; I "Time"; P ";";
  I "dimension"; I "Mass"; P ";";
  I "dimension"; I "Temperature"; P ";";
  I "dimension"; I "Dimensionless"; P "="; N 1; P ";";
  I "unit"; I "dimensionless"; P "="; N 1; P ";";
  P "#"; G DBracket [I "base"; G DParen [I "Length"]]; P "#"; G DBracket [I "symbol"; G DParen [I "m"]];
  P "#"; G DBracket [I "metric_prefixes"]; I "unit"; I "meters"; P ":"; I "Length"; P ";";
  P "#"; G DBracket [I "base"; G DParen [I "Time"]]; P "#"; G DBracket [I "symbol"; G DParen [I "s"]];
  I "unit"; I "seconds"; P ":"; I "Time"; P ";";
  I "dimension"; I "Velocity"; P "="; I "Length"; P "/"; I "Time"; P ";";
  I "unit"; I "meters_per_second"; P "="; I "meters"; P "/"; I "seconds"; P ";";
  I "dimension"; I "Energy"; P "="; I "Mass"; P "*"; I "Velocity"; P "*"; I "Velocity"; P ";";
  P "#"; G DBracket [I "symbol"; G DParen [I "J"]]; I "unit"; I "joules"; P "="; I "kilograms";
  P "*"; I "meters_per_second"; P "^"; N 2; P ";";
  P "#"; G DBracket [I "base"; G DParen [I "Mass"]]; P "#"; G DBracket [I "symbol"; G DParen [I "kg"]];
  I "unit"; I "kilograms"; P ":"; I "Mass"; P ";";
  I "unit"; I "grams"; P "="; F 1 (-3); P "*"; I "kilograms"; P ";";
  I "dimension"; I "Area"; P "="; I "Length"; P "^"; N 2; P ";";
  I "unit"; I "square_meters"; P "="; I "meters"; P "^"; N 2; P ";";
  I "dimension"; I "Volume"; P "="; I "Length"; P "^"; N 3; P ";";
  I "unit"; I "cubic_meters"; P "="; I "meters"; P "^"; N 3; P ";";
  I "dimension"; I "Force"; P "="; I "Energy"; P "/"; I "Length"; P ";";
  P "#"; G DBracket [I "base"; G DParen [I "Temperature"]]; P "#"; G DBracket [I "symbol"; G DParen [I "K"]];
  I "unit"; I "kelvins"; P ":"; I "Temperature"; P ";";
  I "dimension"; I "InverseTemperature"; P "="; N 1; P "/"; I "Temperature"; P ";";
  I "unit"; I "newtons"; P "="; I "joules"; P "/"; I "meters"; P ";";
  I "constant"; I "SOLAR_MASS"; P "="; F 1988477 (24); P "*"; I "kilograms"; P ";";
  I "constant"; I "SOLAR_MASS_GRAMS"; P "="; F 1988477 (27); P "*"; I "grams"; P ";";
  I "constant"; I "SOLAR_MASS_AWKWARD"; P "="; F 1988477 (24); P "*"; I "kilograms"; P "/"; G DParen [I "seconds"; P "/"; I "seconds"];
  P ";"].

(** tests/unit_aliases/mod.rs:3-15. *)
Definition unit_aliases_source : list tok := [
  I "quantity_type"; I "Quantity"; P ";";
  I "dimension_type"; I "Dimension"; P ";";
  I "dimension"; I "Length"; P ";";
  P "#"; G DBracket [I "base"; G DParen [I "Length"]]; P "#"; G DBracket [I "alias"; G DParen [I "metres"]];
  P "#"; G DBracket [I "metric_prefixes"]; P "#"; G DBracket [I "symbol"; G DParen [I "m"]]; I "unit";
  I "meters"; P ":"; I "Length"; P ";";
  P "#"; G DBracket [I "prefix"; G DParen [I "kilo"]]; I "unit"; I "foo"; P ":"; I "Length"; P "=";
  F 25 (-2); P "*"; I "meters"; P ";"].

(** tests/rational_dimensions/mod.rs:1-19. *)
Definition rational_source : list tok := [
  I "quantity_type"; I "Quantity"; P ";";
  I "dimension_type"; I "Dimension"; P ";";
  I "dimension"; I "Length"; P ";";
  I "dimension"; I "Time"; P ";";
  I "dimension"; I "Sorptivity"; P "="; I "Length"; I "Time"; P "^"; G DParen [P "-"; N 1; P "/"; N 2];
  P ";";
  P "#"; G DBracket [I "base"; G DParen [I "Time"]]; P "#"; G DBracket [I "prefix"; G DParen [I "milli"]];
  P "#"; G DBracket [I "symbol"; G DParen [I "s"]]; I "unit"; I "seconds"; P ";";
  P "#"; G DBracket [I "base"; G DParen [I "Length"]]; P "#"; G DBracket [I "prefix"; G DParen [I "micro"]];
  P "#"; G DBracket [I "symbol"; G DParen [I "m"]]; I "unit"; I "meters"; P ";";
  I "unit"; I "meters_per_sqrt_second"; P ":"; I "Sorptivity"; P "="; I "meters"; P "/"; I "seconds";
  P "^"; G DParen [N 1; P "/"; N 2]; P ";"].

(** crates/diman_unit_system/tests/compile_fail/resolver_dimension_in_constant_expression_not_allowed.rs:5-10. *)
Definition resolver_dimension_in_constant_expression_not_allowed : list tok := [
  I "quantity_type"; I "Quantity"; P ";";
  I "dimension_type"; I "Dimension"; P ";";
  I "dimension"; I "Mass"; P ";";
  I "constant"; I "SOLAR_MASS"; P ":"; I "Mass"; P "="; F 1988477 (24); P "*"; I "Mass"; P ";"].

(** crates/diman_unit_system/tests/compile_fail/resolver_dimension_in_unit_expression_not_allowed.rs:5-10. *)
Definition resolver_dimension_in_unit_expression_not_allowed : list tok := [
  I "quantity_type"; I "Quantity"; P ";";
  I "dimension_type"; I "Dimension"; P ";";
  I "dimension"; I "Mass"; P ";";
  I "unit"; I "kilograms"; P "="; F 50 (-1); P "*"; I "Mass"; P ";"].

(** crates/diman_unit_system/tests/compile_fail/resolver_duplicate_base_unit.rs:6-16. *)
Definition resolver_duplicate_base_unit : list tok := [
  I "quantity_type"; I "Quantity"; P ";";
  I "dimension_type"; I "Dimension"; P ";";
  I "dimension"; I "Length"; P ";";
  P "#"; G DBracket [I "base"; G DParen [I "Length"]]; P "#"; G DBracket [I "symbol"; G DParen [I "m"]];
  I "unit"; I "meters"; P ":"; I "Length"; P ";";
  P "#"; G DBracket [I "base"; G DParen [I "Length"]]; P "#"; G DBracket [I "symbol"; G DParen [I "pc"]];
  I "unit"; I "parsec"; P ":"; I "Length"; P ";"].

(** crates/diman_unit_system/tests/compile_fail/resolver_duplicate_definition.rs:6-15. *)
Definition resolver_duplicate_definition : list tok := [
  I "quantity_type"; I "Quantity"; P ";";
  I "dimension_type"; I "Dimension"; P ";";
  I "dimension"; I "Length"; P ";";
  P "#"; G DBracket [I "base"; G DParen [I "Length"]]; P "#"; G DBracket [I "symbol"; G DParen [I "m"]];
  I "unit"; I "meters"; P ":"; I "Length"; P ";";
  I "unit"; I "foo"; P ":"; I "Length"; P "="; F 100 (-1); P "*"; I "meters"; P ";";
  I "unit"; I "foo"; P ":"; I "Length"; P "="; F 200 (-1); P "*"; I "meters"; P ";"].

(** crates/diman_unit_system/tests/compile_fail/resolver_duplicate_symbol.rs:6-16. *)
Definition resolver_duplicate_symbol : list tok := [
  I "quantity_type"; I "Quantity"; P ";";
  I "dimension_type"; I "Dimension"; P ";";
  I "dimension"; I "Length"; P ";";
  P "#"; G DBracket [I "base"; G DParen [I "Length"]]; P "#"; G DBracket [I "prefix"; G DParen [I "milli"]];
  P "#"; G DBracket [I "symbol"; G DParen [I "m"]]; I "unit"; I "meters"; P ":"; I "Length"; P ";";
  P "#"; G DBracket [I "symbol"; G DParen [I "mm"]]; I "unit"; I "my_unit"; P ":"; I "Length";
  P "="; I "meters"; P "*"; F 100 (-1); P ";"].

(** crates/diman_unit_system/tests/compile_fail/resolver_partial_resolution.rs:6-16. *)
Definition resolver_partial_resolution : list tok := [
  I "quantity_type"; I "Quantity"; P ";";
  I "dimension_type"; I "Dimension"; P ";";
  I "dimension"; I "Length"; P ";";
  P "#"; G DBracket [I "base"; G DParen [I "Length"]]; P "#"; G DBracket [I "symbol"; G DParen [I "m"]];
  I "unit"; I "meters"; P ";";
  I "unit"; I "kilometers"; P "="; F 10000 (-1); P "*"; I "meters"; P ";";
  I "unit"; I "millimeters"; P "="; F 1 (-3); P "*"; I "meters"; P ";";
  I "unit"; I "undefined"; P "="; I "undefined"; P ";"].

(** crates/diman_unit_system/tests/compile_fail/resolver_prefixed_or_aliased_units_dont_generate_multiple_errors.rs:6-11. *)
Definition resolver_prefixed_or_aliased_units_dont_generate_multiple_errors : list tok := [
  I "quantity_type"; I "Quantity"; P ";";
  I "dimension_type"; I "Dimension"; P ";";
  P "#"; G DBracket [I "prefix"; G DParen [I "kilo"]]; I "unit"; I "foo"; P "="; I "undefined";
  P ";"].

(** crates/diman_unit_system/tests/compile_fail/resolver_undefined_identifier.rs:6-11. *)
Definition resolver_undefined_identifier : list tok := [
  I "quantity_type"; I "Quantity"; P ";";
  I "dimension_type"; I "Dimension"; P ";";
  I "dimension"; I "Length"; P ";";
  I "unit"; I "kilometers"; P "="; F 10000 (-1); P "*"; I "meters"; P ";"].

(** crates/diman_unit_system/tests/compile_fail/resolver_units_in_dimension_expression_not_allowed.rs:5-13. *)
Definition resolver_units_in_dimension_expression_not_allowed : list tok := [
  I "quantity_type"; I "Quantity"; P ";";
  I "dimension_type"; I "Dimension"; P ";";
  I "dimension"; I "Mass"; P ";";
  P "#"; G DBracket [I "base"; G DParen [I "Mass"]]; P "#"; G DBracket [I "symbol"; G DParen [I "kg"]];
  I "unit"; I "kilograms"; P ":"; I "Mass"; P ";";
  I "dimension"; I "Mass2"; P "="; I "kilograms"; P ";"].

(** crates/diman_unit_system/tests/compile_fail/resolver_unresolvable.rs:6-12. *)
Definition resolver_unresolvable : list tok := [
  I "quantity_type"; I "Quantity"; P ";";
  I "dimension_type"; I "Dimension"; P ";";
  I "dimension"; I "Length"; P ";";
  I "unit"; I "meters"; P "="; F 1 (-3); P "*"; I "kilometers"; P ";";
  I "unit"; I "kilometers"; P "="; F 10000 (-1); P "*"; I "meters"; P ";"].

(** crates/diman_unit_system/tests/compile_fail/dimension_annotation_violated_constant.rs:5-14. *)
Definition dimension_annotation_violated_constant : list tok := [
  I "quantity_type"; I "Quantity"; P ";";
  I "dimension_type"; I "Dimension"; P ";";
  I "dimension"; I "Mass"; P ";";
  P "#"; G DBracket [I "base"; G DParen [I "Mass"]]; P "#"; G DBracket [I "symbol"; G DParen [I "kg"]];
  I "unit"; I "kilograms"; P ":"; I "Mass"; P ";";
  I "unit"; I "grams"; P "="; F 1 (-3); P "*"; I "kilograms"; P ";";
  I "constant"; I "SOLAR_MASS"; P ":"; I "Mass"; P "="; F 1988477 (24); P "*"; I "kilograms";
  P "*"; I "grams"; P ";"].

(** crates/diman_unit_system/tests/compile_fail/dimension_annotation_violated_unit.rs:5-14. *)
Definition dimension_annotation_violated_unit : list tok := [
  I "quantity_type"; I "Quantity"; P ";";
  I "dimension_type"; I "Dimension"; P ";";
  I "dimension"; I "Mass"; P ";";
  I "dimension"; I "Length"; P ";";
  P "#"; G DBracket [I "base"; G DParen [I "Mass"]]; P "#"; G DBracket [I "symbol"; G DParen [I "kg"]];
  I "unit"; I "kilograms"; P ":"; I "Mass"; P ";";
  I "unit"; I "foo"; P ":"; I "Length"; P "="; I "kilograms"; P "*"; I "kilograms"; P ";"].

(** crates/diman_unit_system/tests/compile_fail/dimension_annotation_with_unit_not_allowed.rs:5-13. *)
Definition dimension_annotation_with_unit_not_allowed : list tok := [
  I "quantity_type"; I "Quantity"; P ";";
  I "dimension_type"; I "Dimension"; P ";";
  I "dimension"; I "Mass"; P ";";
  P "#"; G DBracket [I "base"; G DParen [I "Mass"]]; P "#"; G DBracket [I "symbol"; G DParen [I "kg"]];
  I "unit"; I "kilograms"; P ";";
  I "unit"; I "foo"; P ":"; I "kilograms"; P "="; I "kilograms"; P ";"].

(** crates/diman_unit_system/tests/compile_fail/dimension_definition_with_numeric_factor.rs:6-11. *)
Definition dimension_definition_with_numeric_factor : list tok := [
  I "quantity_type"; I "Quantity"; P ";";
  I "dimension_type"; I "Dimension"; P ";";
  I "dimension"; I "Dimensionless"; P "="; N 1; P ";";
  I "dimension"; I "Length"; P "="; F 20 (-1); P "/"; I "Dimensionless"; P ";"].
