(** The two files shipped with the package, and small tables. *)
From Coq Require Import List Ascii String Bool Arith.
From Verif Require Import M_Version M_Load S_Load.
Import ListNotations.
Open Scope list_scope.

(** pyrichlet/utils/_data/chaetocnema.csv *)
Definition chaetocnema_csv : string :=
""""",""X10"",""X12"",""X14"",""X18"",""X40"",""X48"",""species"",""area""
""1"",191,131,53,150,15,104,"" A"","" A""
""2"",185,134,50,147,13,105,"" A"","" A""
""3"",200,137,52,144,14,102,"" A"","" A""
""4"",173,127,50,144,16,97,"" A"","" A""
""5"",171,118,49,153,13,106,"" A"","" A""
""6"",160,118,47,140,15,99,"" A"","" A""
""7"",188,134,54,151,14,98,"" A"","" B""
""8"",186,129,51,143,14,110,"" A"","" C""
""9"",174,131,52,144,14,116,"" A"","" C""
""10"",163,115,47,142,15,95,"" A"","" D""
""11"",190,143,52,141,13,99,"" A"","" D""
""12"",174,131,50,150,15,105,"" A"","" D""
""13"",201,130,51,148,13,110,"" A"","" D""
""14"",190,133,53,154,15,106,"" A"","" D""
""15"",182,130,51,147,14,105,"" A"","" E""
""16"",184,131,51,137,14,95,"" A"","" E""
""17"",177,127,49,134,15,105,"" A"","" E""
""18"",178,126,53,157,14,116,"" A"","" F""
""19"",210,140,54,149,13,107,"" A"","" G""
""20"",182,121,51,147,13,111,"" A"","" G""
""21"",186,136,56,148,14,111,"" A"","" G""
""22"",158,141,58,145,8,107,"" C"","" P""
""23"",146,119,51,140,11,111,"" C"","" P""
""24"",151,130,51,140,11,113,"" C"","" P""
""25"",122,113,45,131,10,102,"" C"","" P""
""26"",138,121,53,139,11,106,"" C"","" P""
""27"",132,115,49,139,10,98,"" C"","" P""
""28"",131,127,51,136,12,107,"" C"","" P""
""29"",135,123,50,129,11,107,"" C"","" P""
""30"",125,119,51,140,10,110,"" C"","" P""
""31"",130,120,48,137,9,106,"" C"","" P""
""32"",130,131,51,141,11,108,"" C"","" P""
""33"",138,127,52,138,9,101,"" C"","" P""
""34"",130,116,52,143,9,111,"" C"","" P""
""35"",143,123,54,142,11,95,"" C"","" P""
""36"",154,135,56,144,10,123,"" C"","" P""
""37"",147,132,54,138,10,102,"" C"","" P""
""38"",141,131,51,140,10,106,"" C"","" P""
""39"",131,116,47,130,9,102,"" C"","" P""
""40"",144,121,53,137,11,104,"" C"","" Q""
""41"",137,146,53,137,10,113,"" C"","" R""
""42"",143,119,53,136,9,105,"" C"","" R""
""43"",135,127,52,140,10,108,"" C"","" R""
""44"",186,107,49,120,14,84,"" B"","" A""
""45"",211,122,49,123,16,95,"" B"","" A""
""46"",201,114,47,130,14,74,"" B"","" A""
""47"",242,131,54,131,16,90,"" B"","" A""
""48"",184,108,43,116,16,75,"" B"","" A""
""49"",211,118,51,122,15,90,"" B"","" A""
""50"",217,122,49,127,15,73,"" B"","" A""
""51"",223,127,51,132,16,84,"" B"","" A""
""52"",208,125,50,125,14,88,"" B"","" B""
""53"",199,124,46,119,13,78,"" B"","" C""
""54"",211,129,49,122,13,83,"" B"","" C""
""55"",218,126,49,120,15,85,"" B"","" C""
""56"",203,122,49,119,14,73,"" B"","" C""
""57"",192,116,49,123,15,90,"" B"","" C""
""58"",195,123,47,125,15,77,"" B"","" D""
""59"",211,122,48,125,14,73,"" B"","" D""
""60"",187,123,47,129,14,75,"" B"","" D""
""61"",192,109,46,130,13,90,"" B"","" E""
""62"",223,124,53,129,13,82,"" B"","" E""
""63"",188,114,48,122,12,74,"" B"","" E""
""64"",216,120,50,129,15,86,"" B"","" H""
""65"",185,114,46,124,15,92,"" B"","" I""
""66"",178,119,47,120,13,78,"" B"","" L""
""67"",187,111,49,119,16,66,"" B"","" L""
""68"",187,112,49,119,14,55,"" B"","" L""
""69"",201,130,54,133,13,84,"" B"","" L""
""70"",187,120,47,121,15,86,"" B"","" L""
""71"",210,119,50,128,14,68,"" B"","" M""
""72"",196,114,51,129,14,86,"" B"","" M""
""73"",195,110,49,124,13,89,"" B"","" N""
""74"",187,124,49,129,14,88,"" B"","" O""
".

(** pyrichlet/utils/_data/penguins.csv *)
Definition penguins_csv : string :=
"species,island,bill_length_mm,bill_depth_mm,flipper_length_mm,body_mass_g,sex
Adelie,Torgersen,39.1,18.7,181,3750,MALE
Adelie,Torgersen,39.5,17.4,186,3800,FEMALE
Adelie,Torgersen,40.3,18,195,3250,FEMALE
Adelie,Torgersen,,,,,
Adelie,Torgersen,36.7,19.3,193,3450,FEMALE
Adelie,Torgersen,39.3,20.6,190,3650,MALE
Adelie,Torgersen,38.9,17.8,181,3625,FEMALE
Adelie,Torgersen,39.2,19.6,195,4675,MALE
Adelie,Torgersen,34.1,18.1,193,3475,
Adelie,Torgersen,42,20.2,190,4250,
Adelie,Torgersen,37.8,17.1,186,3300,
Adelie,Torgersen,37.8,17.3,180,3700,
Adelie,Torgersen,41.1,17.6,182,3200,FEMALE
Adelie,Torgersen,38.6,21.2,191,3800,MALE
Adelie,Torgersen,34.6,21.1,198,4400,MALE
Adelie,Torgersen,36.6,17.8,185,3700,FEMALE
Adelie,Torgersen,38.7,19,195,3450,FEMALE
Adelie,Torgersen,42.5,20.7,197,4500,MALE
Adelie,Torgersen,34.4,18.4,184,3325,FEMALE
Adelie,Torgersen,46,21.5,194,4200,MALE
Adelie,Biscoe,37.8,18.3,174,3400,FEMALE
Adelie,Biscoe,37.7,18.7,180,3600,MALE
Adelie,Biscoe,35.9,19.2,189,3800,FEMALE
Adelie,Biscoe,38.2,18.1,185,3950,MALE
Adelie,Biscoe,38.8,17.2,180,3800,MALE
Adelie,Biscoe,35.3,18.9,187,3800,FEMALE
Adelie,Biscoe,40.6,18.6,183,3550,MALE
Adelie,Biscoe,40.5,17.9,187,3200,FEMALE
Adelie,Biscoe,37.9,18.6,172,3150,FEMALE
Adelie,Biscoe,40.5,18.9,180,3950,MALE
Adelie,Dream,39.5,16.7,178,3250,FEMALE
Adelie,Dream,37.2,18.1,178,3900,MALE
Adelie,Dream,39.5,17.8,188,3300,FEMALE
Adelie,Dream,40.9,18.9,184,3900,MALE
Adelie,Dream,36.4,17,195,3325,FEMALE
Adelie,Dream,39.2,21.1,196,4150,MALE
Adelie,Dream,38.8,20,190,3950,MALE
Adelie,Dream,42.2,18.5,180,3550,FEMALE
Adelie,Dream,37.6,19.3,181,3300,FEMALE
Adelie,Dream,39.8,19.1,184,4650,MALE
Adelie,Dream,36.5,18,182,3150,FEMALE
Adelie,Dream,40.8,18.4,195,3900,MALE
Adelie,Dream,36,18.5,186,3100,FEMALE
Adelie,Dream,44.1,19.7,196,4400,MALE
Adelie,Dream,37,16.9,185,3000,FEMALE
Adelie,Dream,39.6,18.8,190,4600,MALE
Adelie,Dream,41.1,19,182,3425,MALE
Adelie,Dream,37.5,18.9,179,2975,
Adelie,Dream,36,17.9,190,3450,FEMALE
Adelie,Dream,42.3,21.2,191,4150,MALE
Adelie,Biscoe,39.6,17.7,186,3500,FEMALE
Adelie,Biscoe,40.1,18.9,188,4300,MALE
Adelie,Biscoe,35,17.9,190,3450,FEMALE
Adelie,Biscoe,42,19.5,200,4050,MALE
Adelie,Biscoe,34.5,18.1,187,2900,FEMALE
Adelie,Biscoe,41.4,18.6,191,3700,MALE
Adelie,Biscoe,39,17.5,186,3550,FEMALE
Adelie,Biscoe,40.6,18.8,193,3800,MALE
Adelie,Biscoe,36.5,16.6,181,2850,FEMALE
Adelie,Biscoe,37.6,19.1,194,3750,MALE
Adelie,Biscoe,35.7,16.9,185,3150,FEMALE
Adelie,Biscoe,41.3,21.1,195,4400,MALE
Adelie,Biscoe,37.6,17,185,3600,FEMALE
Adelie,Biscoe,41.1,18.2,192,4050,MALE
Adelie,Biscoe,36.4,17.1,184,2850,FEMALE
Adelie,Biscoe,41.6,18,192,3950,MALE
Adelie,Biscoe,35.5,16.2,195,3350,FEMALE
Adelie,Biscoe,41.1,19.1,188,4100,MALE
Adelie,Torgersen,35.9,16.6,190,3050,FEMALE
Adelie,Torgersen,41.8,19.4,198,4450,MALE
Adelie,Torgersen,33.5,19,190,3600,FEMALE
Adelie,Torgersen,39.7,18.4,190,3900,MALE
Adelie,Torgersen,39.6,17.2,196,3550,FEMALE
Adelie,Torgersen,45.8,18.9,197,4150,MALE
Adelie,Torgersen,35.5,17.5,190,3700,FEMALE
Adelie,Torgersen,42.8,18.5,195,4250,MALE
Adelie,Torgersen,40.9,16.8,191,3700,FEMALE
Adelie,Torgersen,37.2,19.4,184,3900,MALE
Adelie,Torgersen,36.2,16.1,187,3550,FEMALE
Adelie,Torgersen,42.1,19.1,195,4000,MALE
Adelie,Torgersen,34.6,17.2,189,3200,FEMALE
Adelie,Torgersen,42.9,17.6,196,4700,MALE
Adelie,Torgersen,36.7,18.8,187,3800,FEMALE
Adelie,Torgersen,35.1,19.4,193,4200,MALE
Adelie,Dream,37.3,17.8,191,3350,FEMALE
Adelie,Dream,41.3,20.3,194,3550,MALE
Adelie,Dream,36.3,19.5,190,3800,MALE
Adelie,Dream,36.9,18.6,189,3500,FEMALE
Adelie,Dream,38.3,19.2,189,3950,MALE
Adelie,Dream,38.9,18.8,190,3600,FEMALE
Adelie,Dream,35.7,18,202,3550,FEMALE
Adelie,Dream,41.1,18.1,205,4300,MALE
Adelie,Dream,34,17.1,185,3400,FEMALE
Adelie,Dream,39.6,18.1,186,4450,MALE
Adelie,Dream,36.2,17.3,187,3300,FEMALE
Adelie,Dream,40.8,18.9,208,4300,MALE
Adelie,Dream,38.1,18.6,190,3700,FEMALE
Adelie,Dream,40.3,18.5,196,4350,MALE
Adelie,Dream,33.1,16.1,178,2900,FEMALE
Adelie,Dream,43.2,18.5,192,4100,MALE
Adelie,Biscoe,35,17.9,192,3725,FEMALE
Adelie,Biscoe,41,20,203,4725,MALE
Adelie,Biscoe,37.7,16,183,3075,FEMALE
Adelie,Biscoe,37.8,20,190,4250,MALE
Adelie,Biscoe,37.9,18.6,193,2925,FEMALE
Adelie,Biscoe,39.7,18.9,184,3550,MALE
Adelie,Biscoe,38.6,17.2,199,3750,FEMALE
Adelie,Biscoe,38.2,20,190,3900,MALE
Adelie,Biscoe,38.1,17,181,3175,FEMALE
Adelie,Biscoe,43.2,19,197,4775,MALE
Adelie,Biscoe,38.1,16.5,198,3825,FEMALE
Adelie,Biscoe,45.6,20.3,191,4600,MALE
Adelie,Biscoe,39.7,17.7,193,3200,FEMALE
Adelie,Biscoe,42.2,19.5,197,4275,MALE
Adelie,Biscoe,39.6,20.7,191,3900,FEMALE
Adelie,Biscoe,42.7,18.3,196,4075,MALE
Adelie,Torgersen,38.6,17,188,2900,FEMALE
Adelie,Torgersen,37.3,20.5,199,3775,MALE
Adelie,Torgersen,35.7,17,189,3350,FEMALE
Adelie,Torgersen,41.1,18.6,189,3325,MALE
Adelie,Torgersen,36.2,17.2,187,3150,FEMALE
Adelie,Torgersen,37.7,19.8,198,3500,MALE
Adelie,Torgersen,40.2,17,176,3450,FEMALE
Adelie,Torgersen,41.4,18.5,202,3875,MALE
Adelie,Torgersen,35.2,15.9,186,3050,FEMALE
Adelie,Torgersen,40.6,19,199,4000,MALE
Adelie,Torgersen,38.8,17.6,191,3275,FEMALE
Adelie,Torgersen,41.5,18.3,195,4300,MALE
Adelie,Torgersen,39,17.1,191,3050,FEMALE
Adelie,Torgersen,44.1,18,210,4000,MALE
Adelie,Torgersen,38.5,17.9,190,3325,FEMALE
Adelie,Torgersen,43.1,19.2,197,3500,MALE
Adelie,Dream,36.8,18.5,193,3500,FEMALE
Adelie,Dream,37.5,18.5,199,4475,MALE
Adelie,Dream,38.1,17.6,187,3425,FEMALE
Adelie,Dream,41.1,17.5,190,3900,MALE
Adelie,Dream,35.6,17.5,191,3175,FEMALE
Adelie,Dream,40.2,20.1,200,3975,MALE
Adelie,Dream,37,16.5,185,3400,FEMALE
Adelie,Dream,39.7,17.9,193,4250,MALE
Adelie,Dream,40.2,17.1,193,3400,FEMALE
Adelie,Dream,40.6,17.2,187,3475,MALE
Adelie,Dream,32.1,15.5,188,3050,FEMALE
Adelie,Dream,40.7,17,190,3725,MALE
Adelie,Dream,37.3,16.8,192,3000,FEMALE
Adelie,Dream,39,18.7,185,3650,MALE
Adelie,Dream,39.2,18.6,190,4250,MALE
Adelie,Dream,36.6,18.4,184,3475,FEMALE
Adelie,Dream,36,17.8,195,3450,FEMALE
Adelie,Dream,37.8,18.1,193,3750,MALE
Adelie,Dream,36,17.1,187,3700,FEMALE
Adelie,Dream,41.5,18.5,201,4000,MALE
Chinstrap,Dream,46.5,17.9,192,3500,FEMALE
Chinstrap,Dream,50,19.5,196,3900,MALE
Chinstrap,Dream,51.3,19.2,193,3650,MALE
Chinstrap,Dream,45.4,18.7,188,3525,FEMALE
Chinstrap,Dream,52.7,19.8,197,3725,MALE
Chinstrap,Dream,45.2,17.8,198,3950,FEMALE
Chinstrap,Dream,46.1,18.2,178,3250,FEMALE
Chinstrap,Dream,51.3,18.2,197,3750,MALE
Chinstrap,Dream,46,18.9,195,4150,FEMALE
Chinstrap,Dream,51.3,19.9,198,3700,MALE
Chinstrap,Dream,46.6,17.8,193,3800,FEMALE
Chinstrap,Dream,51.7,20.3,194,3775,MALE
Chinstrap,Dream,47,17.3,185,3700,FEMALE
Chinstrap,Dream,52,18.1,201,4050,MALE
Chinstrap,Dream,45.9,17.1,190,3575,FEMALE
Chinstrap,Dream,50.5,19.6,201,4050,MALE
Chinstrap,Dream,50.3,20,197,3300,MALE
Chinstrap,Dream,58,17.8,181,3700,FEMALE
Chinstrap,Dream,46.4,18.6,190,3450,FEMALE
Chinstrap,Dream,49.2,18.2,195,4400,MALE
Chinstrap,Dream,42.4,17.3,181,3600,FEMALE
Chinstrap,Dream,48.5,17.5,191,3400,MALE
Chinstrap,Dream,43.2,16.6,187,2900,FEMALE
Chinstrap,Dream,50.6,19.4,193,3800,MALE
Chinstrap,Dream,46.7,17.9,195,3300,FEMALE
Chinstrap,Dream,52,19,197,4150,MALE
Chinstrap,Dream,50.5,18.4,200,3400,FEMALE
Chinstrap,Dream,49.5,19,200,3800,MALE
Chinstrap,Dream,46.4,17.8,191,3700,FEMALE
Chinstrap,Dream,52.8,20,205,4550,MALE
Chinstrap,Dream,40.9,16.6,187,3200,FEMALE
Chinstrap,Dream,54.2,20.8,201,4300,MALE
Chinstrap,Dream,42.5,16.7,187,3350,FEMALE
Chinstrap,Dream,51,18.8,203,4100,MALE
Chinstrap,Dream,49.7,18.6,195,3600,MALE
Chinstrap,Dream,47.5,16.8,199,3900,FEMALE
Chinstrap,Dream,47.6,18.3,195,3850,FEMALE
Chinstrap,Dream,52,20.7,210,4800,MALE
Chinstrap,Dream,46.9,16.6,192,2700,FEMALE
Chinstrap,Dream,53.5,19.9,205,4500,MALE
Chinstrap,Dream,49,19.5,210,3950,MALE
Chinstrap,Dream,46.2,17.5,187,3650,FEMALE
Chinstrap,Dream,50.9,19.1,196,3550,MALE
Chinstrap,Dream,45.5,17,196,3500,FEMALE
Chinstrap,Dream,50.9,17.9,196,3675,FEMALE
Chinstrap,Dream,50.8,18.5,201,4450,MALE
Chinstrap,Dream,50.1,17.9,190,3400,FEMALE
Chinstrap,Dream,49,19.6,212,4300,MALE
Chinstrap,Dream,51.5,18.7,187,3250,MALE
Chinstrap,Dream,49.8,17.3,198,3675,FEMALE
Chinstrap,Dream,48.1,16.4,199,3325,FEMALE
Chinstrap,Dream,51.4,19,201,3950,MALE
Chinstrap,Dream,45.7,17.3,193,3600,FEMALE
Chinstrap,Dream,50.7,19.7,203,4050,MALE
Chinstrap,Dream,42.5,17.3,187,3350,FEMALE
Chinstrap,Dream,52.2,18.8,197,3450,MALE
Chinstrap,Dream,45.2,16.6,191,3250,FEMALE
Chinstrap,Dream,49.3,19.9,203,4050,MALE
Chinstrap,Dream,50.2,18.8,202,3800,MALE
Chinstrap,Dream,45.6,19.4,194,3525,FEMALE
Chinstrap,Dream,51.9,19.5,206,3950,MALE
Chinstrap,Dream,46.8,16.5,189,3650,FEMALE
Chinstrap,Dream,45.7,17,195,3650,FEMALE
Chinstrap,Dream,55.8,19.8,207,4000,MALE
Chinstrap,Dream,43.5,18.1,202,3400,FEMALE
Chinstrap,Dream,49.6,18.2,193,3775,MALE
Chinstrap,Dream,50.8,19,210,4100,MALE
Chinstrap,Dream,50.2,18.7,198,3775,FEMALE
Gentoo,Biscoe,46.1,13.2,211,4500,FEMALE
Gentoo,Biscoe,50,16.3,230,5700,MALE
Gentoo,Biscoe,48.7,14.1,210,4450,FEMALE
Gentoo,Biscoe,50,15.2,218,5700,MALE
Gentoo,Biscoe,47.6,14.5,215,5400,MALE
Gentoo,Biscoe,46.5,13.5,210,4550,FEMALE
Gentoo,Biscoe,45.4,14.6,211,4800,FEMALE
Gentoo,Biscoe,46.7,15.3,219,5200,MALE
Gentoo,Biscoe,43.3,13.4,209,4400,FEMALE
Gentoo,Biscoe,46.8,15.4,215,5150,MALE
Gentoo,Biscoe,40.9,13.7,214,4650,FEMALE
Gentoo,Biscoe,49,16.1,216,5550,MALE
Gentoo,Biscoe,45.5,13.7,214,4650,FEMALE
Gentoo,Biscoe,48.4,14.6,213,5850,MALE
Gentoo,Biscoe,45.8,14.6,210,4200,FEMALE
Gentoo,Biscoe,49.3,15.7,217,5850,MALE
Gentoo,Biscoe,42,13.5,210,4150,FEMALE
Gentoo,Biscoe,49.2,15.2,221,6300,MALE
Gentoo,Biscoe,46.2,14.5,209,4800,FEMALE
Gentoo,Biscoe,48.7,15.1,222,5350,MALE
Gentoo,Biscoe,50.2,14.3,218,5700,MALE
Gentoo,Biscoe,45.1,14.5,215,5000,FEMALE
Gentoo,Biscoe,46.5,14.5,213,4400,FEMALE
Gentoo,Biscoe,46.3,15.8,215,5050,MALE
Gentoo,Biscoe,42.9,13.1,215,5000,FEMALE
Gentoo,Biscoe,46.1,15.1,215,5100,MALE
Gentoo,Biscoe,44.5,14.3,216,4100,
Gentoo,Biscoe,47.8,15,215,5650,MALE
Gentoo,Biscoe,48.2,14.3,210,4600,FEMALE
Gentoo,Biscoe,50,15.3,220,5550,MALE
Gentoo,Biscoe,47.3,15.3,222,5250,MALE
Gentoo,Biscoe,42.8,14.2,209,4700,FEMALE
Gentoo,Biscoe,45.1,14.5,207,5050,FEMALE
Gentoo,Biscoe,59.6,17,230,6050,MALE
Gentoo,Biscoe,49.1,14.8,220,5150,FEMALE
Gentoo,Biscoe,48.4,16.3,220,5400,MALE
Gentoo,Biscoe,42.6,13.7,213,4950,FEMALE
Gentoo,Biscoe,44.4,17.3,219,5250,MALE
Gentoo,Biscoe,44,13.6,208,4350,FEMALE
Gentoo,Biscoe,48.7,15.7,208,5350,MALE
Gentoo,Biscoe,42.7,13.7,208,3950,FEMALE
Gentoo,Biscoe,49.6,16,225,5700,MALE
Gentoo,Biscoe,45.3,13.7,210,4300,FEMALE
Gentoo,Biscoe,49.6,15,216,4750,MALE
Gentoo,Biscoe,50.5,15.9,222,5550,MALE
Gentoo,Biscoe,43.6,13.9,217,4900,FEMALE
Gentoo,Biscoe,45.5,13.9,210,4200,FEMALE
Gentoo,Biscoe,50.5,15.9,225,5400,MALE
Gentoo,Biscoe,44.9,13.3,213,5100,FEMALE
Gentoo,Biscoe,45.2,15.8,215,5300,MALE
Gentoo,Biscoe,46.6,14.2,210,4850,FEMALE
Gentoo,Biscoe,48.5,14.1,220,5300,MALE
Gentoo,Biscoe,45.1,14.4,210,4400,FEMALE
Gentoo,Biscoe,50.1,15,225,5000,MALE
Gentoo,Biscoe,46.5,14.4,217,4900,FEMALE
Gentoo,Biscoe,45,15.4,220,5050,MALE
Gentoo,Biscoe,43.8,13.9,208,4300,FEMALE
Gentoo,Biscoe,45.5,15,220,5000,MALE
Gentoo,Biscoe,43.2,14.5,208,4450,FEMALE
Gentoo,Biscoe,50.4,15.3,224,5550,MALE
Gentoo,Biscoe,45.3,13.8,208,4200,FEMALE
Gentoo,Biscoe,46.2,14.9,221,5300,MALE
Gentoo,Biscoe,45.7,13.9,214,4400,FEMALE
Gentoo,Biscoe,54.3,15.7,231,5650,MALE
Gentoo,Biscoe,45.8,14.2,219,4700,FEMALE
Gentoo,Biscoe,49.8,16.8,230,5700,MALE
Gentoo,Biscoe,46.2,14.4,214,4650,
Gentoo,Biscoe,49.5,16.2,229,5800,MALE
Gentoo,Biscoe,43.5,14.2,220,4700,FEMALE
Gentoo,Biscoe,50.7,15,223,5550,MALE
Gentoo,Biscoe,47.7,15,216,4750,FEMALE
Gentoo,Biscoe,46.4,15.6,221,5000,MALE
Gentoo,Biscoe,48.2,15.6,221,5100,MALE
Gentoo,Biscoe,46.5,14.8,217,5200,FEMALE
Gentoo,Biscoe,46.4,15,216,4700,FEMALE
Gentoo,Biscoe,48.6,16,230,5800,MALE
Gentoo,Biscoe,47.5,14.2,209,4600,FEMALE
Gentoo,Biscoe,51.1,16.3,220,6000,MALE
Gentoo,Biscoe,45.2,13.8,215,4750,FEMALE
Gentoo,Biscoe,45.2,16.4,223,5950,MALE
Gentoo,Biscoe,49.1,14.5,212,4625,FEMALE
Gentoo,Biscoe,52.5,15.6,221,5450,MALE
Gentoo,Biscoe,47.4,14.6,212,4725,FEMALE
Gentoo,Biscoe,50,15.9,224,5350,MALE
Gentoo,Biscoe,44.9,13.8,212,4750,FEMALE
Gentoo,Biscoe,50.8,17.3,228,5600,MALE
Gentoo,Biscoe,43.4,14.4,218,4600,FEMALE
Gentoo,Biscoe,51.3,14.2,218,5300,MALE
Gentoo,Biscoe,47.5,14,212,4875,FEMALE
Gentoo,Biscoe,52.1,17,230,5550,MALE
Gentoo,Biscoe,47.5,15,218,4950,FEMALE
Gentoo,Biscoe,52.2,17.1,228,5400,MALE
Gentoo,Biscoe,45.5,14.5,212,4750,FEMALE
Gentoo,Biscoe,49.5,16.1,224,5650,MALE
Gentoo,Biscoe,44.5,14.7,214,4850,FEMALE
Gentoo,Biscoe,50.8,15.7,226,5200,MALE
Gentoo,Biscoe,49.4,15.8,216,4925,MALE
Gentoo,Biscoe,46.9,14.6,222,4875,FEMALE
Gentoo,Biscoe,48.4,14.4,203,4625,FEMALE
Gentoo,Biscoe,51.1,16.5,225,5250,MALE
Gentoo,Biscoe,48.5,15,219,4850,FEMALE
Gentoo,Biscoe,55.9,17,228,5600,MALE
Gentoo,Biscoe,47.2,15.5,215,4975,FEMALE
Gentoo,Biscoe,49.1,15,228,5500,MALE
Gentoo,Biscoe,47.3,13.8,216,4725,
Gentoo,Biscoe,46.8,16.1,215,5500,MALE
Gentoo,Biscoe,41.7,14.7,210,4700,FEMALE
Gentoo,Biscoe,53.4,15.8,219,5500,MALE
Gentoo,Biscoe,43.3,14,208,4575,FEMALE
Gentoo,Biscoe,48.1,15.1,209,5500,MALE
Gentoo,Biscoe,50.5,15.2,216,5000,FEMALE
Gentoo,Biscoe,49.8,15.9,229,5950,MALE
Gentoo,Biscoe,43.5,15.2,213,4650,FEMALE
Gentoo,Biscoe,51.5,16.3,230,5500,MALE
Gentoo,Biscoe,46.2,14.1,217,4375,FEMALE
Gentoo,Biscoe,55.1,16,230,5850,MALE
Gentoo,Biscoe,44.5,15.7,217,4875,
Gentoo,Biscoe,48.8,16.2,222,6000,MALE
Gentoo,Biscoe,47.2,13.7,214,4925,FEMALE
Gentoo,Biscoe,,,,,
Gentoo,Biscoe,46.8,14.3,215,4850,FEMALE
Gentoo,Biscoe,50.4,15.7,222,5750,MALE
Gentoo,Biscoe,45.2,14.8,212,5200,FEMALE
Gentoo,Biscoe,49.9,16.1,213,5400,MALE
".

(** How often a label occurs. *)
Definition times (l : string) (labels : list (option text)) : nat :=
  List.length (filter (fun o => match o with Some t => teqb t (T l) | None => false end) labels).

(** A small table with a comma and quotes inside fields, a blank line, a
    missing value and no line feed at the end. *)
Definition small_rows : list (list text) :=
  [map T ["species"; "a,b"; "x"; "y"; "z"; "w"]%string;
   map T ["A ""1"""; "q"; "1"; "2"; "3"; "4"]%string;
   map T ["B"; "q"; "1"; ""; "3"; "4"]%string;
   map T ["C"; ""; "5"; "6"; "7"; "8"]%string].

Definition small_csv : text :=
  T "species,""a,b"",x,y,z,w" ++ LF :: T "A ""1"",q,1,2,3,4" ++ LF :: LF ::
  T "B,q,1,,3,4" ++ LF :: T """C"",,5,6,7,8".

Lemma plain_b t :
  negb (has (ch ",") t) && negb (has LF t) &&
  match t with c :: _ => negb (Ascii.eqb c quote_mark) | [] => true end = true ->
  field t t.
Proof.
  intros H. rewrite !andb_true_iff, !negb_true_iff in H. destruct H as ((H1 & H2) & H3).
  constructor.
  - intros X. assert (Y : has (ch ",") t = true); [|congruence].
    apply existsb_exists. exists (ch ","). split; [easy|]. apply Ascii.eqb_refl.
  - intros X. assert (Y : has LF t = true); [|congruence].
    apply existsb_exists. exists LF. split; [easy|]. apply Ascii.eqb_refl.
  - destruct t as [| c t]; [easy|]. cbn. intros [= ->].
    now rewrite Ascii.eqb_refl in H3.
Qed.

Lemma small_file : file small_rows small_csv.
Proof.
  unfold small_rows, small_csv.
  apply file_line; [|discriminate|].
  { apply (line_more (T "species") (T "species")); [apply plain_b; reflexivity|].
    apply (line_more (T "a,b") (T """a,b""")); [exact (field_quoted (T "a,b"))|].
    apply (line_more (T "x") (T "x")); [apply plain_b; reflexivity|].
    apply (line_more (T "y") (T "y")); [apply plain_b; reflexivity|].
    apply (line_more (T "z") (T "z")); [apply plain_b; reflexivity|].
    apply line_one. apply plain_b. reflexivity. }
  apply file_line; [|discriminate|].
  { apply (line_more (T "A ""1""") (T "A ""1""")); [apply plain_b; reflexivity|].
    apply (line_more (T "q") (T "q")); [apply plain_b; reflexivity|].
    apply (line_more (T "1") (T "1")); [apply plain_b; reflexivity|].
    apply (line_more (T "2") (T "2")); [apply plain_b; reflexivity|].
    apply (line_more (T "3") (T "3")); [apply plain_b; reflexivity|].
    apply line_one. apply plain_b. reflexivity. }
  apply file_blank.
  apply file_line; [|discriminate|].
  { apply (line_more (T "B") (T "B")); [apply plain_b; reflexivity|].
    apply (line_more (T "q") (T "q")); [apply plain_b; reflexivity|].
    apply (line_more (T "1") (T "1")); [apply plain_b; reflexivity|].
    apply (line_more (T "") (T "")); [apply plain_b; reflexivity|].
    apply (line_more (T "3") (T "3")); [apply plain_b; reflexivity|].
    apply line_one. apply plain_b. reflexivity. }
  apply file_last; [|discriminate].
  apply (line_more (T "C") (T """C""")); [exact (field_quoted (T "C"))|].
  apply (line_more (T "") (T "")); [apply plain_b; reflexivity|].
  apply (line_more (T "5") (T "5")); [apply plain_b; reflexivity|].
  apply (line_more (T "6") (T "6")); [apply plain_b; reflexivity|].
  apply (line_more (T "7") (T "7")); [apply plain_b; reflexivity|].
  apply line_one. apply plain_b. reflexivity.
Qed.

(** All the rows have [n] cells, none of them missing. *)
Definition all_rows (n : nat) (l : list (list (option text))) : bool :=
  forallb (fun r => (List.length r =? n) &&
                    forallb (fun c => match c with Some _ => true | None => false end) r) l.

Lemma all_rows_spec n l : all_rows n l = true ->
  Forall (fun r => List.length r = n /\ ~ In None r) l.
Proof.
  intros H. apply Forall_forall. intros r Hr. unfold all_rows in H.
  rewrite forallb_forall in H. apply H in Hr. apply andb_true_iff in Hr as [H1 H2].
  split; [now apply Nat.eqb_eq|].
  intros X. rewrite forallb_forall in H2. apply H2 in X. discriminate X.
Qed.

Lemma shipped_chaetocnema :
  exists D, load_chaetocnema (T chaetocnema_csv) = Some D /\
    List.length (ds_data D) = 74 /\
    Forall (fun r => List.length r = 6 /\ ~ In None r) (ds_data D) /\
    map (fun l => times l (ds_labels D)) [" A"; " B"; " C"]%string = [21; 31; 22].
Proof.
  assert (H : option_map (fun D => (List.length (ds_data D), all_rows 6 (ds_data D),
                map (fun l => times l (ds_labels D)) [" A"; " B"; " C"]%string))
                (load_chaetocnema (T chaetocnema_csv)) = Some (74, true, [21; 31; 22]))
    by (vm_compute; reflexivity).
  destruct (load_chaetocnema (T chaetocnema_csv)) as [D |]; [|discriminate H].
  cbn [option_map] in H. exists D. split; [reflexivity|].
  assert (H1 : List.length (ds_data D) = 74) by congruence.
  assert (H2 : all_rows 6 (ds_data D) = true) by congruence.
  split; [exact H1|]. split; [now apply all_rows_spec|]. congruence.
Qed.

Lemma shipped_penguins :
  exists D, load_penguins (T penguins_csv) = Some D /\
    List.length (ds_data D) = 342 /\
    Forall (fun r => List.length r = 4 /\ ~ In None r) (ds_data D) /\
    map (fun l => times l (ds_labels D)) ["Adelie"; "Chinstrap"; "Gentoo"]%string
    = [151; 68; 123] /\
    filter (fun i => negb (existsb (Nat.eqb i) (ds_index D))) (seq 0 344) = [3; 339].
Proof.
  assert (H : option_map (fun D => (List.length (ds_data D), all_rows 4 (ds_data D),
                map (fun l => times l (ds_labels D)) ["Adelie"; "Chinstrap"; "Gentoo"]%string,
                filter (fun i => negb (existsb (Nat.eqb i) (ds_index D))) (seq 0 344)))
                (load_penguins (T penguins_csv)) = Some (342, true, [151; 68; 123], [3; 339]))
    by (vm_compute; reflexivity).
  destruct (load_penguins (T penguins_csv)) as [D |]; [|discriminate H].
  cbn [option_map] in H. exists D. split; [reflexivity|].
  assert (H1 : List.length (ds_data D) = 342) by congruence.
  assert (H2 : all_rows 4 (ds_data D) = true) by congruence.
  split; [exact H1|]. split; [now apply all_rows_spec|]. split; congruence.
Qed.
