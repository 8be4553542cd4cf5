(** Generated by tools/gen_data.py from entity_data.json: the prototype data shipped with the
    library, restricted to the fields the code reads (type, selection_box). *)
From Verif Require Import Py.

Definition proto (t : string) (box : val) : val :=
  VDict [(KS "type", VStr t); (KS "selection_box", box)].
Definition box0 : val := VDict [(KS "left_top", VDict [(KS "y", VFlt (S754_finite true 4503599627370496 (-53))); (KS "x", VFlt (S754_finite true 4503599627370496 (-53)))]); (KS "right_bottom", VDict [(KS "y", VFlt (S754_finite false 4503599627370496 (-53))); (KS "x", VFlt (S754_finite false 4503599627370496 (-53)))])].
Definition box1 : val := VDict [(KS "left_top", VDict [(KS "y", VFlt (S754_finite true 6755399441055744 (-52))); (KS "x", VFlt (S754_finite true 6755399441055744 (-52)))]); (KS "right_bottom", VDict [(KS "y", VFlt (S754_finite false 6755399441055744 (-52))); (KS "x", VFlt (S754_finite false 6755399441055744 (-52)))])].
Definition box2 : val := VDict [(KS "left_top", VDict [(KS "y", VFlt (S754_finite true 4503599627370496 (-53))); (KS "x", VFlt (S754_finite true 8092405580431360 (-53)))]); (KS "right_bottom", VDict [(KS "y", VFlt (S754_finite false 4503599627370496 (-53))); (KS "x", VFlt (S754_finite false 8092405580431360 (-53)))])].
Definition box3 : val := VDict [(KS "left_top", VDict [(KS "y", VInt (-1)); (KS "x", VFlt (S754_finite true 4503599627370496 (-53)))]); (KS "right_bottom", VDict [(KS "y", VInt (1)); (KS "x", VFlt (S754_finite false 4503599627370496 (-53)))])].
Definition box4 : val := VDict [(KS "left_top", VDict [(KS "y", VFlt (S754_finite true 6262818231812096 (-54))); (KS "x", VFlt (S754_finite true 7177611906121728 (-54)))]); (KS "right_bottom", VDict [(KS "y", VFlt (S754_finite false 8092405580431360 (-54))); (KS "x", VFlt (S754_finite false 7177611906121728 (-54)))])].
Definition box5 : val := VDict [(KS "left_top", VDict [(KS "y", VFlt (S754_finite true 7177611906121728 (-54))); (KS "x", VFlt (S754_finite true 7177611906121728 (-54)))]); (KS "right_bottom", VDict [(KS "y", VFlt (S754_finite false 7177611906121728 (-54))); (KS "x", VFlt (S754_finite false 7177611906121728 (-54)))])].
Definition box6 : val := VDict [(KS "left_top", VDict [(KS "y", VInt (-1)); (KS "x", VInt (-1))]); (KS "right_bottom", VDict [(KS "y", VInt (1)); (KS "x", VInt (1))])].
Definition box7 : val := VDict [(KS "left_top", VDict [(KS "y", VFlt (S754_finite true 7177611906121728 (-53))); (KS "x", VFlt (S754_finite true 7652600929320960 (-52)))]); (KS "right_bottom", VDict [(KS "y", VFlt (S754_finite false 7177611906121728 (-53))); (KS "x", VFlt (S754_finite false 7652600929320960 (-52)))])].
Definition box8 : val := VDict [(KS "left_top", VDict [(KS "y", VFlt (S754_finite true 7177611906121728 (-53))); (KS "x", VFlt (S754_finite true 6298002603900928 (-53)))]); (KS "right_bottom", VDict [(KS "y", VFlt (S754_finite false 7177611906121728 (-53))); (KS "x", VFlt (S754_finite false 6298002603900928 (-53)))])].
Definition box9 : val := VDict [(KS "left_top", VDict [(KS "y", VFlt (S754_finite true 8092405580431360 (-53))); (KS "x", VFlt (S754_finite true 8092405580431360 (-53)))]); (KS "right_bottom", VDict [(KS "y", VFlt (S754_finite false 8092405580431360 (-53))); (KS "x", VFlt (S754_finite false 8092405580431360 (-53)))])].
Definition box10 : val := VDict [(KS "left_top", VDict [(KS "y", VInt (-3)); (KS "x", VInt (-1))]); (KS "right_bottom", VDict [(KS "y", VInt (3)); (KS "x", VInt (1))])].
Definition box11 : val := VDict [(KS "left_top", VDict [(KS "y", VFlt (S754_finite true 6086896371367936 (-51))); (KS "x", VInt (-1))]); (KS "right_bottom", VDict [(KS "y", VFlt (S754_finite false 7423902510743552 (-51))); (KS "x", VInt (1))])].
Definition box12 : val := VDict [(KS "left_top", VDict [(KS "y", VInt (-1)); (KS "x", VFlt (S754_finite true 6298002603900928 (-53)))]); (KS "right_bottom", VDict [(KS "y", VInt (1)); (KS "x", VFlt (S754_finite false 6298002603900928 (-53)))])].
Definition box13 : val := VDict [(KS "left_top", VDict [(KS "y", VFlt (S754_finite true 5840605766746112 (-52))); (KS "x", VFlt (S754_finite true 8092405580431360 (-53)))]); (KS "right_bottom", VDict [(KS "y", VFlt (S754_finite false 5840605766746112 (-52))); (KS "x", VFlt (S754_finite false 8092405580431360 (-53)))])].
Definition box14 : val := VDict [(KS "left_top", VDict [(KS "y", VInt (-2)); (KS "x", VInt (-2))]); (KS "right_bottom", VDict [(KS "y", VInt (2)); (KS "x", VInt (2))])].
Definition box15 : val := VDict [(KS "left_top", VDict [(KS "y", VInt (-1)); (KS "x", VFlt (S754_finite true 6755399441055744 (-52)))]); (KS "right_bottom", VDict [(KS "y", VInt (1)); (KS "x", VFlt (S754_finite false 6755399441055744 (-52)))])].
Definition box16 : val := VDict [(KS "left_top", VDict [(KS "y", VFlt (S754_finite true 5629499534213120 (-51))); (KS "x", VFlt (S754_finite true 6755399441055744 (-52)))]); (KS "right_bottom", VDict [(KS "y", VFlt (S754_finite false 5629499534213120 (-51))); (KS "x", VFlt (S754_finite false 6755399441055744 (-52)))])].
Definition box17 : val := VDict [(KS "left_top", VDict [(KS "y", VFlt (S754_finite true 5629499534213120 (-51))); (KS "x", VFlt (S754_finite true 5629499534213120 (-51)))]); (KS "right_bottom", VDict [(KS "y", VFlt (S754_finite false 5629499534213120 (-51))); (KS "x", VFlt (S754_finite false 5629499534213120 (-51)))])].
Definition box18 : val := VDict [(KS "left_top", VDict [(KS "y", VFlt (S754_finite true 6702622882922496 (-52))); (KS "x", VFlt (S754_finite true 5383208929591296 (-53)))]); (KS "right_bottom", VDict [(KS "y", VFlt (S754_finite false 8796093022208000 (-54))); (KS "x", VFlt (S754_finite false 5383208929591296 (-53)))])].
Definition box19 : val := VDict [(KS "left_top", VDict [(KS "y", VInt (-1)); (KS "x", VFlt (S754_finite true 7177611906121728 (-53)))]); (KS "right_bottom", VDict [(KS "y", VInt (1)); (KS "x", VFlt (S754_finite false 7177611906121728 (-53)))])].
Definition box20 : val := VDict [(KS "left_top", VDict [(KS "y", VInt (0)); (KS "x", VInt (0))]); (KS "right_bottom", VDict [(KS "y", VInt (0)); (KS "x", VInt (0))])].
Definition box21 : val := VDict [(KS "left_top", VDict [(KS "y", VFlt (S754_finite true 6755399441055744 (-52))); (KS "x", VInt (-1))]); (KS "right_bottom", VDict [(KS "y", VFlt (S754_finite false 6755399441055744 (-52))); (KS "x", VInt (1))])].
Definition box22 : val := VDict [(KS "left_top", VDict [(KS "y", VFlt (S754_finite true 8092405580431360 (-53))); (KS "x", VFlt (S754_finite true 6755399441055744 (-52)))]); (KS "right_bottom", VDict [(KS "y", VFlt (S754_finite false 8092405580431360 (-53))); (KS "x", VFlt (S754_finite false 8092405580431360 (-53)))])].
Definition box23 : val := VDict [(KS "left_top", VDict [(KS "y", VFlt (S754_finite true 6755399441055744 (-52))); (KS "x", VFlt (S754_finite true 5629499534213120 (-51)))]); (KS "right_bottom", VDict [(KS "y", VFlt (S754_finite false 6755399441055744 (-52))); (KS "x", VFlt (S754_finite false 5629499534213120 (-51)))])].
Definition box24 : val := VDict [(KS "left_top", VDict [(KS "y", VFlt (S754_finite true 5066549580791808 (-50))); (KS "x", VFlt (S754_finite true 5066549580791808 (-50)))]); (KS "right_bottom", VDict [(KS "y", VFlt (S754_finite false 5066549580791808 (-50))); (KS "x", VFlt (S754_finite false 5066549580791808 (-50)))])].
Definition box25 : val := VDict [(KS "left_top", VDict [(KS "y", VInt (-1)); (KS "x", VInt (-1))]); (KS "right_bottom", VDict [(KS "y", VFlt (S754_finite false 6755399441055744 (-53))); (KS "x", VInt (1))])].
Definition box26 : val := VDict [(KS "left_top", VDict [(KS "y", VFlt (S754_finite true 5840605766746112 (-52))); (KS "x", VFlt (S754_finite true 7652600929320960 (-52)))]); (KS "right_bottom", VDict [(KS "y", VFlt (S754_finite false 5840605766746112 (-52))); (KS "x", VFlt (S754_finite false 7652600929320960 (-52)))])].
Definition box27 : val := VDict [(KS "left_top", VDict [(KS "y", VFlt (S754_finite true 5400801115635712 (-52))); (KS "x", VFlt (S754_finite true 5400801115635712 (-52)))]); (KS "right_bottom", VDict [(KS "y", VFlt (S754_finite false 5400801115635712 (-52))); (KS "x", VFlt (S754_finite false 5400801115635712 (-52)))])].
Definition box28 : val := VDict [(KS "left_top", VDict [(KS "y", VFlt (S754_finite true 6755399441055744 (-52))); (KS "x", VFlt (S754_finite true 6078100278345728 (-51)))]); (KS "right_bottom", VDict [(KS "y", VFlt (S754_finite false 6755399441055744 (-52))); (KS "x", VFlt (S754_finite false 6078100278345728 (-51)))])].
Definition box29 : val := VDict [(KS "left_top", VDict [(KS "y", VFlt (S754_finite true 6755399441055744 (-52))); (KS "x", VInt (-2))]); (KS "right_bottom", VDict [(KS "y", VFlt (S754_finite false 6755399441055744 (-52))); (KS "x", VInt (2))])].
Definition box30 : val := VDict [(KS "left_top", VDict [(KS "y", VFlt (S754_finite true 5400801115635712 (-52))); (KS "x", VFlt (S754_finite true 6755399441055744 (-52)))]); (KS "right_bottom", VDict [(KS "y", VFlt (S754_finite false 5400801115635712 (-52))); (KS "x", VFlt (S754_finite false 6755399441055744 (-52)))])].
Definition box31 : val := VDict [(KS "left_top", VDict [(KS "y", VFlt (S754_finite true 4943404278480896 (-52))); (KS "x", VFlt (S754_finite true 5840605766746112 (-52)))]); (KS "right_bottom", VDict [(KS "y", VFlt (S754_finite false 4943404278480896 (-52))); (KS "x", VFlt (S754_finite false 5840605766746112 (-52)))])].
Definition box32 : val := VDict [(KS "left_top", VDict [(KS "y", VFlt (S754_finite true 7177611906121728 (-53))); (KS "x", VFlt (S754_finite true 8092405580431360 (-53)))]); (KS "right_bottom", VDict [(KS "y", VFlt (S754_finite false 7177611906121728 (-53))); (KS "x", VFlt (S754_finite false 8092405580431360 (-53)))])].
Definition box33 : val := VDict [(KS "left_top", VDict [(KS "y", VInt (-1)); (KS "x", VFlt (S754_finite true 4943404278480896 (-52)))]); (KS "right_bottom", VDict [(KS "y", VInt (1)); (KS "x", VFlt (S754_finite false 4943404278480896 (-52)))])].
Definition box34 : val := VDict [(KS "left_top", VDict [(KS "y", VFlt (S754_finite true 5400801115635712 (-52))); (KS "x", VFlt (S754_finite true 6298002603900928 (-52)))]); (KS "right_bottom", VDict [(KS "y", VFlt (S754_finite false 5400801115635712 (-52))); (KS "x", VFlt (S754_finite false 6298002603900928 (-52)))])].

(** entity_data.json, "entity" *)
Definition shipped_entities : dict := [
  (KS "wooden-chest", proto "container" box0);
  (KS "iron-chest", proto "container" box0);
  (KS "steel-chest", proto "container" box0);
  (KS "storage-tank", proto "storage-tank" box1);
  (KS "transport-belt", proto "transport-belt" box0);
  (KS "fast-transport-belt", proto "transport-belt" box0);
  (KS "express-transport-belt", proto "transport-belt" box0);
  (KS "underground-belt", proto "underground-belt" box0);
  (KS "fast-underground-belt", proto "underground-belt" box0);
  (KS "express-underground-belt", proto "underground-belt" box0);
  (KS "splitter", proto "splitter" box2);
  (KS "fast-splitter", proto "splitter" box2);
  (KS "express-splitter", proto "splitter" box2);
  (KS "loader", proto "loader" box3);
  (KS "fast-loader", proto "loader" box3);
  (KS "express-loader", proto "loader" box3);
  (KS "burner-inserter", proto "inserter" box4);
  (KS "inserter", proto "inserter" box4);
  (KS "long-handed-inserter", proto "inserter" box4);
  (KS "fast-inserter", proto "inserter" box4);
  (KS "filter-inserter", proto "inserter" box4);
  (KS "stack-inserter", proto "inserter" box4);
  (KS "stack-filter-inserter", proto "inserter" box4);
  (KS "small-electric-pole", proto "electric-pole" box5);
  (KS "medium-electric-pole", proto "electric-pole" box0);
  (KS "big-electric-pole", proto "electric-pole" box6);
  (KS "substation", proto "electric-pole" box6);
  (KS "pipe", proto "pipe" box0);
  (KS "pipe-to-ground", proto "pipe-to-ground" box0);
  (KS "pump", proto "pump" box3);
  (KS "curved-rail", proto "curved-rail" box7);
  (KS "straight-rail", proto "straight-rail" box8);
  (KS "train-stop", proto "train-stop" box9);
  (KS "rail-signal", proto "rail-signal" box0);
  (KS "rail-chain-signal", proto "rail-chain-signal" box0);
  (KS "locomotive", proto "locomotive" box10);
  (KS "cargo-wagon", proto "cargo-wagon" box11);
  (KS "fluid-wagon", proto "fluid-wagon" box11);
  (KS "artillery-wagon", proto "artillery-wagon" box11);
  (KS "car", proto "car" box12);
  (KS "tank", proto "car" box13);
  (KS "logistic-chest-active-provider", proto "logistic-container" box0);
  (KS "logistic-chest-passive-provider", proto "logistic-container" box0);
  (KS "logistic-chest-storage", proto "logistic-container" box0);
  (KS "logistic-chest-buffer", proto "logistic-container" box0);
  (KS "logistic-chest-requester", proto "logistic-container" box0);
  (KS "roboport", proto "roboport" box14);
  (KS "small-lamp", proto "lamp" box0);
  (KS "arithmetic-combinator", proto "arithmetic-combinator" box3);
  (KS "decider-combinator", proto "decider-combinator" box3);
  (KS "constant-combinator", proto "constant-combinator" box0);
  (KS "power-switch", proto "power-switch" box6);
  (KS "programmable-speaker", proto "programmable-speaker" box0);
  (KS "boiler", proto "boiler" box15);
  (KS "steam-engine", proto "generator" box16);
  (KS "solar-panel", proto "solar-panel" box1);
  (KS "accumulator", proto "accumulator" box6);
  (KS "nuclear-reactor", proto "reactor" box17);
  (KS "heat-pipe", proto "heat-pipe" box0);
  (KS "heat-exchanger", proto "boiler" box15);
  (KS "steam-turbine", proto "generator" box16);
  (KS "burner-mining-drill", proto "mining-drill" box6);
  (KS "electric-mining-drill", proto "mining-drill" box1);
  (KS "offshore-pump", proto "offshore-pump" box18);
  (KS "pumpjack", proto "mining-drill" box1);
  (KS "stone-furnace", proto "furnace" box19);
  (KS "steel-furnace", proto "furnace" box19);
  (KS "electric-furnace", proto "furnace" box1);
  (KS "assembling-machine-1", proto "assembling-machine" box1);
  (KS "assembling-machine-2", proto "assembling-machine" box1);
  (KS "assembling-machine-3", proto "assembling-machine" box1);
  (KS "oil-refinery", proto "assembling-machine" box17);
  (KS "chemical-plant", proto "assembling-machine" box1);
  (KS "centrifuge", proto "assembling-machine" box1);
  (KS "lab", proto "lab" box1);
  (KS "beacon", proto "beacon" box1);
  (KS "crash-site-electric-pole", proto "electric-pole" box20);
  (KS "crash-site-assembling-machine-1-broken", proto "simple-entity" box15);
  (KS "crash-site-assembling-machine-1-repaired", proto "assembling-machine" box15);
  (KS "crash-site-assembling-machine-2-broken", proto "simple-entity" box21);
  (KS "crash-site-assembling-machine-2-repaired", proto "assembling-machine" box21);
  (KS "crash-site-chest-1", proto "container" box0);
  (KS "crash-site-chest-2", proto "container" box0);
  (KS "crash-site-generator", proto "electric-energy-interface" box22);
  (KS "crash-site-lab-broken", proto "simple-entity" box23);
  (KS "crash-site-lab-repaired", proto "lab" box23);
  (KS "land-mine", proto "land-mine" box0);
  (KS "stone-wall", proto "wall" box0);
  (KS "gate", proto "gate" box0);
  (KS "gun-turret", proto "ammo-turret" box6);
  (KS "laser-turret", proto "electric-turret" box6);
  (KS "flamethrower-turret", proto "fluid-turret" box21);
  (KS "artillery-turret", proto "artillery-turret" box1);
  (KS "radar", proto "radar" box1);
  (KS "rocket-silo", proto "rocket-silo" box24);
  (KS "simple-entity-with-force", proto "simple-entity-with-force" box0);
  (KS "simple-entity-with-owner", proto "simple-entity-with-owner" box0);
  (KS "electric-energy-interface", proto "electric-energy-interface" box6);
  (KS "heat-interface", proto "heat-interface" box0);
  (KS "infinity-chest", proto "infinity-container" box0);
  (KS "infinity-pipe", proto "infinity-pipe" box0);
  (KS "burner-generator", proto "burner-generator" box16);
  (KS "player-port", proto "player-port" box6);
  (KS "sand-rock-big", proto "simple-entity" box25);
  (KS "rock-huge", proto "simple-entity" box26);
  (KS "rock-big", proto "simple-entity" box27);
  (KS "big-ship-wreck-1", proto "container" box28);
  (KS "big-ship-wreck-2", proto "container" box29);
  (KS "big-ship-wreck-3", proto "container" box29);
  (KS "medium-ship-wreck", proto "simple-entity" box30);
  (KS "mineable-wreckage", proto "simple-entity" box31);
  (KS "small-ship-wreck", proto "simple-entity" box31);
  (KS "small-worm-turret", proto "turret" box32);
  (KS "medium-worm-turret", proto "turret" box33);
  (KS "big-worm-turret", proto "turret" box34);
  (KS "behemoth-worm-turret", proto "turret" box34);
  (KS "loader-1x1", proto "loader-1x1" box0);
  (KS "bait-chest", proto "container" box0);
  (KS "blue-chest", proto "container" box0);
  (KS "market", proto "market" box1);
  (KS "hidden-electric-energy-interface", proto "electric-energy-interface" box20);
  (KS "red-chest", proto "container" box0)].

(** entity_data.json, "signal" *)
Definition shipped_signals : dict := [
  (KS "signal-everything", VDict [(KS "name", VStr "signal-everything"); (KS "type", VStr "virtual")]);
  (KS "signal-anything", VDict [(KS "name", VStr "signal-anything"); (KS "type", VStr "virtual")]);
  (KS "signal-each", VDict [(KS "name", VStr "signal-each"); (KS "type", VStr "virtual")]);
  (KS "signal-0", VDict [(KS "name", VStr "signal-0"); (KS "type", VStr "virtual")]);
  (KS "signal-1", VDict [(KS "name", VStr "signal-1"); (KS "type", VStr "virtual")]);
  (KS "signal-2", VDict [(KS "name", VStr "signal-2"); (KS "type", VStr "virtual")]);
  (KS "signal-3", VDict [(KS "name", VStr "signal-3"); (KS "type", VStr "virtual")]);
  (KS "signal-4", VDict [(KS "name", VStr "signal-4"); (KS "type", VStr "virtual")]);
  (KS "signal-5", VDict [(KS "name", VStr "signal-5"); (KS "type", VStr "virtual")]);
  (KS "signal-6", VDict [(KS "name", VStr "signal-6"); (KS "type", VStr "virtual")]);
  (KS "signal-7", VDict [(KS "name", VStr "signal-7"); (KS "type", VStr "virtual")]);
  (KS "signal-8", VDict [(KS "name", VStr "signal-8"); (KS "type", VStr "virtual")]);
  (KS "signal-9", VDict [(KS "name", VStr "signal-9"); (KS "type", VStr "virtual")]);
  (KS "signal-A", VDict [(KS "name", VStr "signal-A"); (KS "type", VStr "virtual")]);
  (KS "signal-B", VDict [(KS "name", VStr "signal-B"); (KS "type", VStr "virtual")]);
  (KS "signal-C", VDict [(KS "name", VStr "signal-C"); (KS "type", VStr "virtual")]);
  (KS "signal-D", VDict [(KS "name", VStr "signal-D"); (KS "type", VStr "virtual")]);
  (KS "signal-E", VDict [(KS "name", VStr "signal-E"); (KS "type", VStr "virtual")]);
  (KS "signal-F", VDict [(KS "name", VStr "signal-F"); (KS "type", VStr "virtual")]);
  (KS "signal-G", VDict [(KS "name", VStr "signal-G"); (KS "type", VStr "virtual")]);
  (KS "signal-H", VDict [(KS "name", VStr "signal-H"); (KS "type", VStr "virtual")]);
  (KS "signal-I", VDict [(KS "name", VStr "signal-I"); (KS "type", VStr "virtual")]);
  (KS "signal-J", VDict [(KS "name", VStr "signal-J"); (KS "type", VStr "virtual")]);
  (KS "signal-K", VDict [(KS "name", VStr "signal-K"); (KS "type", VStr "virtual")]);
  (KS "signal-L", VDict [(KS "name", VStr "signal-L"); (KS "type", VStr "virtual")]);
  (KS "signal-M", VDict [(KS "name", VStr "signal-M"); (KS "type", VStr "virtual")]);
  (KS "signal-N", VDict [(KS "name", VStr "signal-N"); (KS "type", VStr "virtual")]);
  (KS "signal-O", VDict [(KS "name", VStr "signal-O"); (KS "type", VStr "virtual")]);
  (KS "signal-P", VDict [(KS "name", VStr "signal-P"); (KS "type", VStr "virtual")]);
  (KS "signal-Q", VDict [(KS "name", VStr "signal-Q"); (KS "type", VStr "virtual")]);
  (KS "signal-R", VDict [(KS "name", VStr "signal-R"); (KS "type", VStr "virtual")]);
  (KS "signal-S", VDict [(KS "name", VStr "signal-S"); (KS "type", VStr "virtual")]);
  (KS "signal-T", VDict [(KS "name", VStr "signal-T"); (KS "type", VStr "virtual")]);
  (KS "signal-U", VDict [(KS "name", VStr "signal-U"); (KS "type", VStr "virtual")]);
  (KS "signal-V", VDict [(KS "name", VStr "signal-V"); (KS "type", VStr "virtual")]);
  (KS "signal-W", VDict [(KS "name", VStr "signal-W"); (KS "type", VStr "virtual")]);
  (KS "signal-X", VDict [(KS "name", VStr "signal-X"); (KS "type", VStr "virtual")]);
  (KS "signal-Y", VDict [(KS "name", VStr "signal-Y"); (KS "type", VStr "virtual")]);
  (KS "signal-Z", VDict [(KS "name", VStr "signal-Z"); (KS "type", VStr "virtual")]);
  (KS "signal-red", VDict [(KS "name", VStr "signal-red"); (KS "type", VStr "virtual")]);
  (KS "signal-green", VDict [(KS "name", VStr "signal-green"); (KS "type", VStr "virtual")]);
  (KS "signal-blue", VDict [(KS "name", VStr "signal-blue"); (KS "type", VStr "virtual")]);
  (KS "signal-yellow", VDict [(KS "name", VStr "signal-yellow"); (KS "type", VStr "virtual")]);
  (KS "signal-pink", VDict [(KS "name", VStr "signal-pink"); (KS "type", VStr "virtual")]);
  (KS "signal-cyan", VDict [(KS "name", VStr "signal-cyan"); (KS "type", VStr "virtual")]);
  (KS "signal-white", VDict [(KS "name", VStr "signal-white"); (KS "type", VStr "virtual")]);
  (KS "signal-grey", VDict [(KS "name", VStr "signal-grey"); (KS "type", VStr "virtual")]);
  (KS "signal-black", VDict [(KS "name", VStr "signal-black"); (KS "type", VStr "virtual")]);
  (KS "signal-check", VDict [(KS "name", VStr "signal-check"); (KS "type", VStr "virtual")]);
  (KS "signal-info", VDict [(KS "name", VStr "signal-info"); (KS "type", VStr "virtual")]);
  (KS "signal-dot", VDict [(KS "name", VStr "signal-dot"); (KS "type", VStr "virtual")]);
  (KS "water", VDict [(KS "name", VStr "water"); (KS "type", VStr "fluid")]);
  (KS "crude-oil", VDict [(KS "name", VStr "crude-oil"); (KS "type", VStr "fluid")]);
  (KS "steam", VDict [(KS "name", VStr "steam"); (KS "type", VStr "fluid")]);
  (KS "heavy-oil", VDict [(KS "name", VStr "heavy-oil"); (KS "type", VStr "fluid")]);
  (KS "light-oil", VDict [(KS "name", VStr "light-oil"); (KS "type", VStr "fluid")]);
  (KS "petroleum-gas", VDict [(KS "name", VStr "petroleum-gas"); (KS "type", VStr "fluid")]);
  (KS "sulfuric-acid", VDict [(KS "name", VStr "sulfuric-acid"); (KS "type", VStr "fluid")]);
  (KS "lubricant", VDict [(KS "name", VStr "lubricant"); (KS "type", VStr "fluid")]);
  (KS "wooden-chest", VDict [(KS "name", VStr "wooden-chest"); (KS "type", VStr "item")]);
  (KS "iron-chest", VDict [(KS "name", VStr "iron-chest"); (KS "type", VStr "item")]);
  (KS "steel-chest", VDict [(KS "name", VStr "steel-chest"); (KS "type", VStr "item")]);
  (KS "storage-tank", VDict [(KS "name", VStr "storage-tank"); (KS "type", VStr "item")]);
  (KS "transport-belt", VDict [(KS "name", VStr "transport-belt"); (KS "type", VStr "item")]);
  (KS "fast-transport-belt", VDict [(KS "name", VStr "fast-transport-belt"); (KS "type", VStr "item")]);
  (KS "express-transport-belt", VDict [(KS "name", VStr "express-transport-belt"); (KS "type", VStr "item")]);
  (KS "underground-belt", VDict [(KS "name", VStr "underground-belt"); (KS "type", VStr "item")]);
  (KS "fast-underground-belt", VDict [(KS "name", VStr "fast-underground-belt"); (KS "type", VStr "item")]);
  (KS "express-underground-belt", VDict [(KS "name", VStr "express-underground-belt"); (KS "type", VStr "item")]);
  (KS "splitter", VDict [(KS "name", VStr "splitter"); (KS "type", VStr "item")]);
  (KS "fast-splitter", VDict [(KS "name", VStr "fast-splitter"); (KS "type", VStr "item")]);
  (KS "express-splitter", VDict [(KS "name", VStr "express-splitter"); (KS "type", VStr "item")]);
  (KS "burner-inserter", VDict [(KS "name", VStr "burner-inserter"); (KS "type", VStr "item")]);
  (KS "inserter", VDict [(KS "name", VStr "inserter"); (KS "type", VStr "item")]);
  (KS "long-handed-inserter", VDict [(KS "name", VStr "long-handed-inserter"); (KS "type", VStr "item")]);
  (KS "fast-inserter", VDict [(KS "name", VStr "fast-inserter"); (KS "type", VStr "item")]);
  (KS "filter-inserter", VDict [(KS "name", VStr "filter-inserter"); (KS "type", VStr "item")]);
  (KS "stack-inserter", VDict [(KS "name", VStr "stack-inserter"); (KS "type", VStr "item")]);
  (KS "stack-filter-inserter", VDict [(KS "name", VStr "stack-filter-inserter"); (KS "type", VStr "item")]);
  (KS "small-electric-pole", VDict [(KS "name", VStr "small-electric-pole"); (KS "type", VStr "item")]);
  (KS "medium-electric-pole", VDict [(KS "name", VStr "medium-electric-pole"); (KS "type", VStr "item")]);
  (KS "big-electric-pole", VDict [(KS "name", VStr "big-electric-pole"); (KS "type", VStr "item")]);
  (KS "substation", VDict [(KS "name", VStr "substation"); (KS "type", VStr "item")]);
  (KS "pipe", VDict [(KS "name", VStr "pipe"); (KS "type", VStr "item")]);
  (KS "pipe-to-ground", VDict [(KS "name", VStr "pipe-to-ground"); (KS "type", VStr "item")]);
  (KS "pump", VDict [(KS "name", VStr "pump"); (KS "type", VStr "item")]);
  (KS "rail", VDict [(KS "name", VStr "rail"); (KS "type", VStr "item")]);
  (KS "train-stop", VDict [(KS "name", VStr "train-stop"); (KS "type", VStr "item")]);
  (KS "rail-signal", VDict [(KS "name", VStr "rail-signal"); (KS "type", VStr "item")]);
  (KS "rail-chain-signal", VDict [(KS "name", VStr "rail-chain-signal"); (KS "type", VStr "item")]);
  (KS "locomotive", VDict [(KS "name", VStr "locomotive"); (KS "type", VStr "item")]);
  (KS "cargo-wagon", VDict [(KS "name", VStr "cargo-wagon"); (KS "type", VStr "item")]);
  (KS "fluid-wagon", VDict [(KS "name", VStr "fluid-wagon"); (KS "type", VStr "item")]);
  (KS "artillery-wagon", VDict [(KS "name", VStr "artillery-wagon"); (KS "type", VStr "item")]);
  (KS "car", VDict [(KS "name", VStr "car"); (KS "type", VStr "item")]);
  (KS "tank", VDict [(KS "name", VStr "tank"); (KS "type", VStr "item")]);
  (KS "logistic-robot", VDict [(KS "name", VStr "logistic-robot"); (KS "type", VStr "item")]);
  (KS "construction-robot", VDict [(KS "name", VStr "construction-robot"); (KS "type", VStr "item")]);
  (KS "logistic-chest-active-provider", VDict [(KS "name", VStr "logistic-chest-active-provider"); (KS "type", VStr "item")]);
  (KS "logistic-chest-passive-provider", VDict [(KS "name", VStr "logistic-chest-passive-provider"); (KS "type", VStr "item")]);
  (KS "logistic-chest-storage", VDict [(KS "name", VStr "logistic-chest-storage"); (KS "type", VStr "item")]);
  (KS "logistic-chest-buffer", VDict [(KS "name", VStr "logistic-chest-buffer"); (KS "type", VStr "item")]);
  (KS "logistic-chest-requester", VDict [(KS "name", VStr "logistic-chest-requester"); (KS "type", VStr "item")]);
  (KS "roboport", VDict [(KS "name", VStr "roboport"); (KS "type", VStr "item")]);
  (KS "small-lamp", VDict [(KS "name", VStr "small-lamp"); (KS "type", VStr "item")]);
  (KS "red-wire", VDict [(KS "name", VStr "red-wire"); (KS "type", VStr "item")]);
  (KS "green-wire", VDict [(KS "name", VStr "green-wire"); (KS "type", VStr "item")]);
  (KS "arithmetic-combinator", VDict [(KS "name", VStr "arithmetic-combinator"); (KS "type", VStr "item")]);
  (KS "decider-combinator", VDict [(KS "name", VStr "decider-combinator"); (KS "type", VStr "item")]);
  (KS "constant-combinator", VDict [(KS "name", VStr "constant-combinator"); (KS "type", VStr "item")]);
  (KS "power-switch", VDict [(KS "name", VStr "power-switch"); (KS "type", VStr "item")]);
  (KS "programmable-speaker", VDict [(KS "name", VStr "programmable-speaker"); (KS "type", VStr "item")]);
  (KS "stone-brick", VDict [(KS "name", VStr "stone-brick"); (KS "type", VStr "item")]);
  (KS "concrete", VDict [(KS "name", VStr "concrete"); (KS "type", VStr "item")]);
  (KS "hazard-concrete", VDict [(KS "name", VStr "hazard-concrete"); (KS "type", VStr "item")]);
  (KS "refined-concrete", VDict [(KS "name", VStr "refined-concrete"); (KS "type", VStr "item")]);
  (KS "refined-hazard-concrete", VDict [(KS "name", VStr "refined-hazard-concrete"); (KS "type", VStr "item")]);
  (KS "landfill", VDict [(KS "name", VStr "landfill"); (KS "type", VStr "item")]);
  (KS "cliff-explosives", VDict [(KS "name", VStr "cliff-explosives"); (KS "type", VStr "item")]);
  (KS "repair-pack", VDict [(KS "name", VStr "repair-pack"); (KS "type", VStr "item")]);
  (KS "blueprint", VDict [(KS "name", VStr "blueprint"); (KS "type", VStr "item")]);
  (KS "deconstruction-planner", VDict [(KS "name", VStr "deconstruction-planner"); (KS "type", VStr "item")]);
  (KS "upgrade-planner", VDict [(KS "name", VStr "upgrade-planner"); (KS "type", VStr "item")]);
  (KS "blueprint-book", VDict [(KS "name", VStr "blueprint-book"); (KS "type", VStr "item")]);
  (KS "boiler", VDict [(KS "name", VStr "boiler"); (KS "type", VStr "item")]);
  (KS "steam-engine", VDict [(KS "name", VStr "steam-engine"); (KS "type", VStr "item")]);
  (KS "solar-panel", VDict [(KS "name", VStr "solar-panel"); (KS "type", VStr "item")]);
  (KS "accumulator", VDict [(KS "name", VStr "accumulator"); (KS "type", VStr "item")]);
  (KS "nuclear-reactor", VDict [(KS "name", VStr "nuclear-reactor"); (KS "type", VStr "item")]);
  (KS "heat-pipe", VDict [(KS "name", VStr "heat-pipe"); (KS "type", VStr "item")]);
  (KS "heat-exchanger", VDict [(KS "name", VStr "heat-exchanger"); (KS "type", VStr "item")]);
  (KS "steam-turbine", VDict [(KS "name", VStr "steam-turbine"); (KS "type", VStr "item")]);
  (KS "burner-mining-drill", VDict [(KS "name", VStr "burner-mining-drill"); (KS "type", VStr "item")]);
  (KS "electric-mining-drill", VDict [(KS "name", VStr "electric-mining-drill"); (KS "type", VStr "item")]);
  (KS "offshore-pump", VDict [(KS "name", VStr "offshore-pump"); (KS "type", VStr "item")]);
  (KS "pumpjack", VDict [(KS "name", VStr "pumpjack"); (KS "type", VStr "item")]);
  (KS "stone-furnace", VDict [(KS "name", VStr "stone-furnace"); (KS "type", VStr "item")]);
  (KS "steel-furnace", VDict [(KS "name", VStr "steel-furnace"); (KS "type", VStr "item")]);
  (KS "electric-furnace", VDict [(KS "name", VStr "electric-furnace"); (KS "type", VStr "item")]);
  (KS "assembling-machine-1", VDict [(KS "name", VStr "assembling-machine-1"); (KS "type", VStr "item")]);
  (KS "assembling-machine-2", VDict [(KS "name", VStr "assembling-machine-2"); (KS "type", VStr "item")]);
  (KS "assembling-machine-3", VDict [(KS "name", VStr "assembling-machine-3"); (KS "type", VStr "item")]);
  (KS "oil-refinery", VDict [(KS "name", VStr "oil-refinery"); (KS "type", VStr "item")]);
  (KS "chemical-plant", VDict [(KS "name", VStr "chemical-plant"); (KS "type", VStr "item")]);
  (KS "centrifuge", VDict [(KS "name", VStr "centrifuge"); (KS "type", VStr "item")]);
  (KS "lab", VDict [(KS "name", VStr "lab"); (KS "type", VStr "item")]);
  (KS "beacon", VDict [(KS "name", VStr "beacon"); (KS "type", VStr "item")]);
  (KS "speed-module", VDict [(KS "name", VStr "speed-module"); (KS "type", VStr "item")]);
  (KS "speed-module-2", VDict [(KS "name", VStr "speed-module-2"); (KS "type", VStr "item")]);
  (KS "speed-module-3", VDict [(KS "name", VStr "speed-module-3"); (KS "type", VStr "item")]);
  (KS "effectivity-module", VDict [(KS "name", VStr "effectivity-module"); (KS "type", VStr "item")]);
  (KS "effectivity-module-2", VDict [(KS "name", VStr "effectivity-module-2"); (KS "type", VStr "item")]);
  (KS "effectivity-module-3", VDict [(KS "name", VStr "effectivity-module-3"); (KS "type", VStr "item")]);
  (KS "productivity-module", VDict [(KS "name", VStr "productivity-module"); (KS "type", VStr "item")]);
  (KS "productivity-module-2", VDict [(KS "name", VStr "productivity-module-2"); (KS "type", VStr "item")]);
  (KS "productivity-module-3", VDict [(KS "name", VStr "productivity-module-3"); (KS "type", VStr "item")]);
  (KS "wood", VDict [(KS "name", VStr "wood"); (KS "type", VStr "item")]);
  (KS "coal", VDict [(KS "name", VStr "coal"); (KS "type", VStr "item")]);
  (KS "stone", VDict [(KS "name", VStr "stone"); (KS "type", VStr "item")]);
  (KS "iron-ore", VDict [(KS "name", VStr "iron-ore"); (KS "type", VStr "item")]);
  (KS "copper-ore", VDict [(KS "name", VStr "copper-ore"); (KS "type", VStr "item")]);
  (KS "uranium-ore", VDict [(KS "name", VStr "uranium-ore"); (KS "type", VStr "item")]);
  (KS "raw-fish", VDict [(KS "name", VStr "raw-fish"); (KS "type", VStr "item")]);
  (KS "iron-plate", VDict [(KS "name", VStr "iron-plate"); (KS "type", VStr "item")]);
  (KS "copper-plate", VDict [(KS "name", VStr "copper-plate"); (KS "type", VStr "item")]);
  (KS "solid-fuel", VDict [(KS "name", VStr "solid-fuel"); (KS "type", VStr "item")]);
  (KS "steel-plate", VDict [(KS "name", VStr "steel-plate"); (KS "type", VStr "item")]);
  (KS "plastic-bar", VDict [(KS "name", VStr "plastic-bar"); (KS "type", VStr "item")]);
  (KS "sulfur", VDict [(KS "name", VStr "sulfur"); (KS "type", VStr "item")]);
  (KS "battery", VDict [(KS "name", VStr "battery"); (KS "type", VStr "item")]);
  (KS "explosives", VDict [(KS "name", VStr "explosives"); (KS "type", VStr "item")]);
  (KS "crude-oil-barrel", VDict [(KS "name", VStr "crude-oil-barrel"); (KS "type", VStr "item")]);
  (KS "heavy-oil-barrel", VDict [(KS "name", VStr "heavy-oil-barrel"); (KS "type", VStr "item")]);
  (KS "light-oil-barrel", VDict [(KS "name", VStr "light-oil-barrel"); (KS "type", VStr "item")]);
  (KS "lubricant-barrel", VDict [(KS "name", VStr "lubricant-barrel"); (KS "type", VStr "item")]);
  (KS "petroleum-gas-barrel", VDict [(KS "name", VStr "petroleum-gas-barrel"); (KS "type", VStr "item")]);
  (KS "sulfuric-acid-barrel", VDict [(KS "name", VStr "sulfuric-acid-barrel"); (KS "type", VStr "item")]);
  (KS "water-barrel", VDict [(KS "name", VStr "water-barrel"); (KS "type", VStr "item")]);
  (KS "copper-cable", VDict [(KS "name", VStr "copper-cable"); (KS "type", VStr "item")]);
  (KS "iron-stick", VDict [(KS "name", VStr "iron-stick"); (KS "type", VStr "item")]);
  (KS "iron-gear-wheel", VDict [(KS "name", VStr "iron-gear-wheel"); (KS "type", VStr "item")]);
  (KS "empty-barrel", VDict [(KS "name", VStr "empty-barrel"); (KS "type", VStr "item")]);
  (KS "electronic-circuit", VDict [(KS "name", VStr "electronic-circuit"); (KS "type", VStr "item")]);
  (KS "advanced-circuit", VDict [(KS "name", VStr "advanced-circuit"); (KS "type", VStr "item")]);
  (KS "processing-unit", VDict [(KS "name", VStr "processing-unit"); (KS "type", VStr "item")]);
  (KS "engine-unit", VDict [(KS "name", VStr "engine-unit"); (KS "type", VStr "item")]);
  (KS "electric-engine-unit", VDict [(KS "name", VStr "electric-engine-unit"); (KS "type", VStr "item")]);
  (KS "flying-robot-frame", VDict [(KS "name", VStr "flying-robot-frame"); (KS "type", VStr "item")]);
  (KS "satellite", VDict [(KS "name", VStr "satellite"); (KS "type", VStr "item")]);
  (KS "rocket-control-unit", VDict [(KS "name", VStr "rocket-control-unit"); (KS "type", VStr "item")]);
  (KS "low-density-structure", VDict [(KS "name", VStr "low-density-structure"); (KS "type", VStr "item")]);
  (KS "rocket-fuel", VDict [(KS "name", VStr "rocket-fuel"); (KS "type", VStr "item")]);
  (KS "nuclear-fuel", VDict [(KS "name", VStr "nuclear-fuel"); (KS "type", VStr "item")]);
  (KS "uranium-235", VDict [(KS "name", VStr "uranium-235"); (KS "type", VStr "item")]);
  (KS "uranium-238", VDict [(KS "name", VStr "uranium-238"); (KS "type", VStr "item")]);
  (KS "uranium-fuel-cell", VDict [(KS "name", VStr "uranium-fuel-cell"); (KS "type", VStr "item")]);
  (KS "used-up-uranium-fuel-cell", VDict [(KS "name", VStr "used-up-uranium-fuel-cell"); (KS "type", VStr "item")]);
  (KS "automation-science-pack", VDict [(KS "name", VStr "automation-science-pack"); (KS "type", VStr "item")]);
  (KS "logistic-science-pack", VDict [(KS "name", VStr "logistic-science-pack"); (KS "type", VStr "item")]);
  (KS "military-science-pack", VDict [(KS "name", VStr "military-science-pack"); (KS "type", VStr "item")]);
  (KS "chemical-science-pack", VDict [(KS "name", VStr "chemical-science-pack"); (KS "type", VStr "item")]);
  (KS "production-science-pack", VDict [(KS "name", VStr "production-science-pack"); (KS "type", VStr "item")]);
  (KS "utility-science-pack", VDict [(KS "name", VStr "utility-science-pack"); (KS "type", VStr "item")]);
  (KS "space-science-pack", VDict [(KS "name", VStr "space-science-pack"); (KS "type", VStr "item")]);
  (KS "pistol", VDict [(KS "name", VStr "pistol"); (KS "type", VStr "item")]);
  (KS "submachine-gun", VDict [(KS "name", VStr "submachine-gun"); (KS "type", VStr "item")]);
  (KS "shotgun", VDict [(KS "name", VStr "shotgun"); (KS "type", VStr "item")]);
  (KS "combat-shotgun", VDict [(KS "name", VStr "combat-shotgun"); (KS "type", VStr "item")]);
  (KS "rocket-launcher", VDict [(KS "name", VStr "rocket-launcher"); (KS "type", VStr "item")]);
  (KS "flamethrower", VDict [(KS "name", VStr "flamethrower"); (KS "type", VStr "item")]);
  (KS "land-mine", VDict [(KS "name", VStr "land-mine"); (KS "type", VStr "item")]);
  (KS "firearm-magazine", VDict [(KS "name", VStr "firearm-magazine"); (KS "type", VStr "item")]);
  (KS "piercing-rounds-magazine", VDict [(KS "name", VStr "piercing-rounds-magazine"); (KS "type", VStr "item")]);
  (KS "uranium-rounds-magazine", VDict [(KS "name", VStr "uranium-rounds-magazine"); (KS "type", VStr "item")]);
  (KS "shotgun-shell", VDict [(KS "name", VStr "shotgun-shell"); (KS "type", VStr "item")]);
  (KS "piercing-shotgun-shell", VDict [(KS "name", VStr "piercing-shotgun-shell"); (KS "type", VStr "item")]);
  (KS "cannon-shell", VDict [(KS "name", VStr "cannon-shell"); (KS "type", VStr "item")]);
  (KS "explosive-cannon-shell", VDict [(KS "name", VStr "explosive-cannon-shell"); (KS "type", VStr "item")]);
  (KS "uranium-cannon-shell", VDict [(KS "name", VStr "uranium-cannon-shell"); (KS "type", VStr "item")]);
  (KS "explosive-uranium-cannon-shell", VDict [(KS "name", VStr "explosive-uranium-cannon-shell"); (KS "type", VStr "item")]);
  (KS "artillery-shell", VDict [(KS "name", VStr "artillery-shell"); (KS "type", VStr "item")]);
  (KS "rocket", VDict [(KS "name", VStr "rocket"); (KS "type", VStr "item")]);
  (KS "explosive-rocket", VDict [(KS "name", VStr "explosive-rocket"); (KS "type", VStr "item")]);
  (KS "atomic-bomb", VDict [(KS "name", VStr "atomic-bomb"); (KS "type", VStr "item")]);
  (KS "flamethrower-ammo", VDict [(KS "name", VStr "flamethrower-ammo"); (KS "type", VStr "item")]);
  (KS "grenade", VDict [(KS "name", VStr "grenade"); (KS "type", VStr "item")]);
  (KS "cluster-grenade", VDict [(KS "name", VStr "cluster-grenade"); (KS "type", VStr "item")]);
  (KS "poison-capsule", VDict [(KS "name", VStr "poison-capsule"); (KS "type", VStr "item")]);
  (KS "slowdown-capsule", VDict [(KS "name", VStr "slowdown-capsule"); (KS "type", VStr "item")]);
  (KS "defender-capsule", VDict [(KS "name", VStr "defender-capsule"); (KS "type", VStr "item")]);
  (KS "distractor-capsule", VDict [(KS "name", VStr "distractor-capsule"); (KS "type", VStr "item")]);
  (KS "destroyer-capsule", VDict [(KS "name", VStr "destroyer-capsule"); (KS "type", VStr "item")]);
  (KS "discharge-defense-remote", VDict [(KS "name", VStr "discharge-defense-remote"); (KS "type", VStr "item")]);
  (KS "artillery-targeting-remote", VDict [(KS "name", VStr "artillery-targeting-remote"); (KS "type", VStr "item")]);
  (KS "light-armor", VDict [(KS "name", VStr "light-armor"); (KS "type", VStr "item")]);
  (KS "heavy-armor", VDict [(KS "name", VStr "heavy-armor"); (KS "type", VStr "item")]);
  (KS "modular-armor", VDict [(KS "name", VStr "modular-armor"); (KS "type", VStr "item")]);
  (KS "power-armor", VDict [(KS "name", VStr "power-armor"); (KS "type", VStr "item")]);
  (KS "power-armor-mk2", VDict [(KS "name", VStr "power-armor-mk2"); (KS "type", VStr "item")]);
  (KS "solar-panel-equipment", VDict [(KS "name", VStr "solar-panel-equipment"); (KS "type", VStr "item")]);
  (KS "fusion-reactor-equipment", VDict [(KS "name", VStr "fusion-reactor-equipment"); (KS "type", VStr "item")]);
  (KS "energy-shield-equipment", VDict [(KS "name", VStr "energy-shield-equipment"); (KS "type", VStr "item")]);
  (KS "energy-shield-mk2-equipment", VDict [(KS "name", VStr "energy-shield-mk2-equipment"); (KS "type", VStr "item")]);
  (KS "battery-equipment", VDict [(KS "name", VStr "battery-equipment"); (KS "type", VStr "item")]);
  (KS "battery-mk2-equipment", VDict [(KS "name", VStr "battery-mk2-equipment"); (KS "type", VStr "item")]);
  (KS "personal-laser-defense-equipment", VDict [(KS "name", VStr "personal-laser-defense-equipment"); (KS "type", VStr "item")]);
  (KS "discharge-defense-equipment", VDict [(KS "name", VStr "discharge-defense-equipment"); (KS "type", VStr "item")]);
  (KS "belt-immunity-equipment", VDict [(KS "name", VStr "belt-immunity-equipment"); (KS "type", VStr "item")]);
  (KS "exoskeleton-equipment", VDict [(KS "name", VStr "exoskeleton-equipment"); (KS "type", VStr "item")]);
  (KS "personal-roboport-equipment", VDict [(KS "name", VStr "personal-roboport-equipment"); (KS "type", VStr "item")]);
  (KS "personal-roboport-mk2-equipment", VDict [(KS "name", VStr "personal-roboport-mk2-equipment"); (KS "type", VStr "item")]);
  (KS "night-vision-equipment", VDict [(KS "name", VStr "night-vision-equipment"); (KS "type", VStr "item")]);
  (KS "stone-wall", VDict [(KS "name", VStr "stone-wall"); (KS "type", VStr "item")]);
  (KS "gate", VDict [(KS "name", VStr "gate"); (KS "type", VStr "item")]);
  (KS "gun-turret", VDict [(KS "name", VStr "gun-turret"); (KS "type", VStr "item")]);
  (KS "laser-turret", VDict [(KS "name", VStr "laser-turret"); (KS "type", VStr "item")]);
  (KS "flamethrower-turret", VDict [(KS "name", VStr "flamethrower-turret"); (KS "type", VStr "item")]);
  (KS "artillery-turret", VDict [(KS "name", VStr "artillery-turret"); (KS "type", VStr "item")]);
  (KS "radar", VDict [(KS "name", VStr "radar"); (KS "type", VStr "item")]);
  (KS "rocket-silo", VDict [(KS "name", VStr "rocket-silo"); (KS "type", VStr "item")])].

(** entity_data.json, "recipe" (names only) *)
Definition shipped_recipes : dict :=
  map (fun k => (k, VDict [])) [
  KS "assembling-machine-1"; KS "automation-science-pack"; KS "firearm-magazine"; KS "pistol"; KS "piercing-rounds-magazine"; KS "submachine-gun"; KS "uranium-rounds-magazine"; KS "beacon"; KS "burner-inserter"; KS "copper-cable"; KS "electric-energy-interface"; KS "solar-panel-equipment"; KS "fusion-reactor-equipment"; KS "small-electric-pole"; KS "medium-electric-pole"; KS "big-electric-pole"; KS "substation"; KS "sulfuric-acid"; KS "grenade"; KS "cluster-grenade"; KS "burner-mining-drill"; KS "wooden-chest"; KS "electric-mining-drill"; KS "iron-chest"; KS "steel-chest"; KS "light-armor"; KS "small-lamp"; KS "basic-oil-processing"; KS "advanced-oil-processing"; KS "coal-liquefaction"; KS "pipe"; KS "pipe-to-ground"; KS "logistic-robot"; KS "construction-robot"; KS "speed-module"; KS "speed-module-2"; KS "speed-module-3"; KS "stone-brick"; KS "stone-furnace"; KS "stone-wall"; KS "rail"; KS "train-stop"; KS "rail-signal"; KS "rail-chain-signal"; KS "locomotive"; KS "cargo-wagon"; KS "fluid-wagon"; KS "artillery-wagon"; KS "transport-belt"; KS "fast-transport-belt"; KS "express-transport-belt"; KS "gate"; KS "assembling-machine-2"; KS "concrete"; KS "hazard-concrete"; KS "refined-concrete"; KS "refined-hazard-concrete"; KS "fill-crude-oil-barrel"; KS "fill-heavy-oil-barrel"; KS "fill-light-oil-barrel"; KS "fill-lubricant-barrel"; KS "fill-petroleum-gas-barrel"; KS "fill-sulfuric-acid-barrel"; KS "fill-water-barrel"; KS "heavy-oil-cracking"; KS "light-oil-cracking"; KS "solid-fuel-from-light-oil"; KS "solid-fuel-from-petroleum-gas"; KS "solid-fuel-from-heavy-oil"; KS "storage-tank"; KS "offshore-pump"; KS "pumpjack"; KS "heavy-armor"; KS "inserter"; KS "iron-plate"; KS "iron-stick"; KS "logistic-science-pack"; KS "car"; KS "tank"; KS "small-plane"; KS "pump"; KS "poison-capsule"; KS "repair-pack"; KS "energy-shield-equipment"; KS "energy-shield-mk2-equipment"; KS "shotgun"; KS "shotgun-shell"; KS "combat-shotgun"; KS "piercing-shotgun-shell"; KS "boiler"; KS "steam-engine"; KS "steel-furnace"; KS "logistic-chest-active-provider"; KS "logistic-chest-passive-provider"; KS "logistic-chest-storage"; KS "logistic-chest-buffer"; KS "logistic-chest-requester"; KS "gun-turret"; KS "laser-turret"; KS "flamethrower-turret"; KS "artillery-turret"; KS "underground-belt"; KS "fast-underground-belt"; KS "express-underground-belt"; KS "red-wire"; KS "green-wire"; KS "assembling-machine-3"; KS "battery-equipment"; KS "battery-mk2-equipment"; KS "arithmetic-combinator"; KS "decider-combinator"; KS "constant-combinator"; KS "copper-plate"; KS "effectivity-module"; KS "effectivity-module-2"; KS "effectivity-module-3"; KS "electric-furnace"; KS "empty-crude-oil-barrel"; KS "empty-heavy-oil-barrel"; KS "empty-light-oil-barrel"; KS "empty-lubricant-barrel"; KS "empty-petroleum-gas-barrel"; KS "empty-sulfuric-acid-barrel"; KS "empty-water-barrel"; KS "iron-gear-wheel"; KS "landfill"; KS "long-handed-inserter"; KS "military-science-pack"; KS "modular-armor"; KS "productivity-module"; KS "productivity-module-2"; KS "productivity-module-3"; KS "railgun"; KS "railgun-dart"; KS "roboport"; KS "slowdown-capsule"; KS "splitter"; KS "fast-splitter"; KS "express-splitter"; KS "personal-laser-defense-equipment"; KS "discharge-defense-equipment"; KS "cannon-shell"; KS "explosive-cannon-shell"; KS "uranium-cannon-shell"; KS "chemical-science-pack"; KS "cliff-explosives"; KS "defender-capsule"; KS "empty-barrel"; KS "explosive-uranium-cannon-shell"; KS "artillery-shell"; KS "fast-inserter"; KS "loader"; KS "fast-loader"; KS "express-loader"; KS "power-switch"; KS "programmable-speaker"; KS "power-armor"; KS "radar"; KS "oil-refinery"; KS "rocket-launcher"; KS "rocket"; KS "explosive-rocket"; KS "atomic-bomb"; KS "solar-panel"; KS "steel-plate"; KS "accumulator"; KS "belt-immunity-equipment"; KS "chemical-plant"; KS "distractor-capsule"; KS "electronic-circuit"; KS "exoskeleton-equipment"; KS "filter-inserter"; KS "flamethrower"; KS "flamethrower-ammo"; KS "lubricant"; KS "power-armor-mk2"; KS "production-science-pack"; KS "personal-roboport-equipment"; KS "personal-roboport-mk2-equipment"; KS "rocket-silo"; KS "advanced-circuit"; KS "destroyer-capsule"; KS "land-mine"; KS "night-vision-equipment"; KS "nuclear-reactor"; KS "heat-pipe"; KS "heat-exchanger"; KS "steam-turbine"; KS "plastic-bar"; KS "stack-inserter"; KS "utility-science-pack"; KS "centrifuge"; KS "lab"; KS "processing-unit"; KS "stack-filter-inserter"; KS "sulfur"; KS "battery"; KS "engine-unit"; KS "electric-engine-unit"; KS "explosives"; KS "uranium-processing"; KS "flying-robot-frame"; KS "satellite"; KS "rocket-control-unit"; KS "low-density-structure"; KS "rocket-fuel"; KS "rocket-part"; KS "nuclear-fuel"; KS "uranium-fuel-cell"; KS "nuclear-fuel-reprocessing"; KS "kovarex-enrichment-process"; KS "discharge-defense-remote"; KS "player-port"; KS "artillery-targeting-remote"].

(** entity_data.json, "item" (names only) *)
Definition shipped_items : dict :=
  map (fun k => (k, VDict [])) [
  KS "wooden-chest"; KS "iron-chest"; KS "steel-chest"; KS "storage-tank"; KS "transport-belt"; KS "fast-transport-belt"; KS "express-transport-belt"; KS "underground-belt"; KS "fast-underground-belt"; KS "express-underground-belt"; KS "splitter"; KS "fast-splitter"; KS "express-splitter"; KS "loader"; KS "fast-loader"; KS "express-loader"; KS "burner-inserter"; KS "inserter"; KS "long-handed-inserter"; KS "fast-inserter"; KS "filter-inserter"; KS "stack-inserter"; KS "stack-filter-inserter"; KS "small-electric-pole"; KS "medium-electric-pole"; KS "big-electric-pole"; KS "substation"; KS "pipe"; KS "pipe-to-ground"; KS "pump"; KS "rail"; KS "train-stop"; KS "rail-signal"; KS "rail-chain-signal"; KS "locomotive"; KS "cargo-wagon"; KS "fluid-wagon"; KS "artillery-wagon"; KS "car"; KS "tank"; KS "small-plane"; KS "logistic-robot"; KS "construction-robot"; KS "logistic-chest-active-provider"; KS "logistic-chest-passive-provider"; KS "logistic-chest-storage"; KS "logistic-chest-buffer"; KS "logistic-chest-requester"; KS "roboport"; KS "small-lamp"; KS "red-wire"; KS "green-wire"; KS "arithmetic-combinator"; KS "decider-combinator"; KS "constant-combinator"; KS "power-switch"; KS "programmable-speaker"; KS "stone-brick"; KS "concrete"; KS "hazard-concrete"; KS "refined-concrete"; KS "refined-hazard-concrete"; KS "landfill"; KS "cliff-explosives"; KS "dummy-steel-axe"; KS "repair-pack"; KS "blueprint"; KS "deconstruction-planner"; KS "upgrade-planner"; KS "blueprint-book"; KS "copy-paste-tool"; KS "cut-paste-tool"; KS "boiler"; KS "steam-engine"; KS "solar-panel"; KS "accumulator"; KS "nuclear-reactor"; KS "heat-pipe"; KS "heat-exchanger"; KS "steam-turbine"; KS "burner-mining-drill"; KS "electric-mining-drill"; KS "offshore-pump"; KS "pumpjack"; KS "stone-furnace"; KS "steel-furnace"; KS "electric-furnace"; KS "assembling-machine-1"; KS "assembling-machine-2"; KS "assembling-machine-3"; KS "oil-refinery"; KS "chemical-plant"; KS "centrifuge"; KS "lab"; KS "beacon"; KS "speed-module"; KS "speed-module-2"; KS "speed-module-3"; KS "effectivity-module"; KS "effectivity-module-2"; KS "effectivity-module-3"; KS "productivity-module"; KS "productivity-module-2"; KS "productivity-module-3"; KS "crash-site-assembling-machine-1-broken"; KS "crash-site-assembling-machine-1-repaired"; KS "crash-site-assembling-machine-2-broken"; KS "crash-site-assembling-machine-2-repaired"; KS "crash-site-chest-1"; KS "crash-site-chest-2"; KS "crash-site-electric-pole"; KS "crash-site-generator"; KS "crash-site-lab-broken"; KS "crash-site-lab-repaired"; KS "wood"; KS "coal"; KS "stone"; KS "iron-ore"; KS "copper-ore"; KS "uranium-ore"; KS "raw-fish"; KS "iron-plate"; KS "copper-plate"; KS "solid-fuel"; KS "steel-plate"; KS "plastic-bar"; KS "sulfur"; KS "battery"; KS "explosives"; KS "crude-oil-barrel"; KS "heavy-oil-barrel"; KS "light-oil-barrel"; KS "lubricant-barrel"; KS "petroleum-gas-barrel"; KS "sulfuric-acid-barrel"; KS "water-barrel"; KS "copper-cable"; KS "iron-stick"; KS "iron-gear-wheel"; KS "empty-barrel"; KS "electronic-circuit"; KS "advanced-circuit"; KS "processing-unit"; KS "engine-unit"; KS "electric-engine-unit"; KS "flying-robot-frame"; KS "satellite"; KS "rocket-control-unit"; KS "low-density-structure"; KS "rocket-fuel"; KS "rocket-part"; KS "nuclear-fuel"; KS "uranium-235"; KS "uranium-238"; KS "uranium-fuel-cell"; KS "used-up-uranium-fuel-cell"; KS "automation-science-pack"; KS "logistic-science-pack"; KS "military-science-pack"; KS "chemical-science-pack"; KS "production-science-pack"; KS "utility-science-pack"; KS "space-science-pack"; KS "coin"; KS "pistol"; KS "submachine-gun"; KS "tank-machine-gun"; KS "vehicle-machine-gun"; KS "tank-flamethrower"; KS "shotgun"; KS "combat-shotgun"; KS "railgun"; KS "rocket-launcher"; KS "flamethrower"; KS "land-mine"; KS "artillery-wagon-cannon"; KS "tank-cannon"; KS "firearm-magazine"; KS "piercing-rounds-magazine"; KS "uranium-rounds-magazine"; KS "shotgun-shell"; KS "piercing-shotgun-shell"; KS "railgun-dart"; KS "cannon-shell"; KS "explosive-cannon-shell"; KS "uranium-cannon-shell"; KS "explosive-uranium-cannon-shell"; KS "artillery-shell"; KS "rocket"; KS "explosive-rocket"; KS "atomic-bomb"; KS "flamethrower-ammo"; KS "grenade"; KS "cluster-grenade"; KS "poison-capsule"; KS "slowdown-capsule"; KS "defender-capsule"; KS "distractor-capsule"; KS "destroyer-capsule"; KS "discharge-defense-remote"; KS "artillery-targeting-remote"; KS "light-armor"; KS "heavy-armor"; KS "modular-armor"; KS "power-armor"; KS "power-armor-mk2"; KS "solar-panel-equipment"; KS "fusion-reactor-equipment"; KS "energy-shield-equipment"; KS "energy-shield-mk2-equipment"; KS "battery-equipment"; KS "battery-mk2-equipment"; KS "personal-laser-defense-equipment"; KS "discharge-defense-equipment"; KS "belt-immunity-equipment"; KS "exoskeleton-equipment"; KS "personal-roboport-equipment"; KS "personal-roboport-mk2-equipment"; KS "night-vision-equipment"; KS "stone-wall"; KS "gate"; KS "gun-turret"; KS "laser-turret"; KS "flamethrower-turret"; KS "artillery-turret"; KS "radar"; KS "rocket-silo"; KS "computer"; KS "player-port"; KS "electric-energy-interface"; KS "heat-interface"; KS "infinity-chest"; KS "infinity-pipe"; KS "selection-tool"; KS "item-with-inventory"; KS "item-with-label"; KS "item-with-tags"; KS "simple-entity-with-force"; KS "simple-entity-with-owner"; KS "burner-generator"].

(** entity_data.json, "tile" (names only) *)
Definition shipped_tiles : dict :=
  map (fun k => (k, VDict [])) [
  KS "stone-path"; KS "concrete"; KS "hazard-concrete-left"; KS "hazard-concrete-right"; KS "refined-concrete"; KS "refined-hazard-concrete-left"; KS "refined-hazard-concrete-right"; KS "landfill"; KS "acid-refined-concrete"; KS "black-refined-concrete"; KS "blue-refined-concrete"; KS "brown-refined-concrete"; KS "cyan-refined-concrete"; KS "green-refined-concrete"; KS "orange-refined-concrete"; KS "pink-refined-concrete"; KS "purple-refined-concrete"; KS "red-refined-concrete"; KS "yellow-refined-concrete"; KS "grass-1"; KS "grass-2"; KS "grass-3"; KS "grass-4"; KS "dry-dirt"; KS "dirt-1"; KS "dirt-2"; KS "dirt-3"; KS "dirt-4"; KS "dirt-5"; KS "dirt-6"; KS "dirt-7"; KS "sand-1"; KS "sand-2"; KS "sand-3"; KS "red-desert-0"; KS "red-desert-1"; KS "red-desert-2"; KS "red-desert-3"; KS "water"; KS "deepwater"; KS "water-green"; KS "deepwater-green"; KS "water-shallow"; KS "water-mud"; KS "out-of-map"; KS "lab-dark-1"; KS "lab-dark-2"; KS "lab-white"; KS "tutorial-grid"].
