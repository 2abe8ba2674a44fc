(** GENERATED by tools/gen_cert.py.  Certificates about the bison automaton.  Nothing here is trusted: every use is
    re-checked by a boolean validator evaluated in the kernel (TableCheck.v). *)
From Verif Require Import Base.

(** For each state, the states from which it is entered. *)
Definition preds_list : list (list Z) := [
  [];
  [0; 70];
  [0; 70];
  [0; 70];
  [0; 70];
  [0; 70];
  [0; 70];
  [0; 70];
  [0; 70];
  [0; 70];
  [0; 70];
  [0; 70];
  [0; 70];
  [0; 70];
  [0; 70];
  [0; 70; 211; 292; 456];
  [0; 70];
  [0; 70];
  [0; 70];
  [0];
  [0];
  [0];
  [0; 70];
  [0; 70];
  [0; 70];
  [0; 70];
  [0; 70];
  [0; 70];
  [0; 70];
  [0; 70];
  [0; 70];
  [0; 70];
  [0; 70];
  [0; 70];
  [0; 70];
  [0; 70];
  [0; 70];
  [0; 70; 211; 292; 456];
  [0; 70; 211; 292; 456];
  [1];
  [2; 5; 10; 12; 48; 50; 60; 85; 86; 93; 100; 101; 209; 332; 350; 493; 539; 584; 588];
  [2];
  [3];
  [4];
  [5];
  [6];
  [6];
  [6];
  [7];
  [8];
  [9];
  [10];
  [10];
  [11];
  [12; 37; 54; 103; 112; 115; 266];
  [12];
  [12];
  [13];
  [13];
  [13];
  [14];
  [14];
  [15; 104];
  [15];
  [15];
  [16; 17; 18];
  [16];
  [17];
  [18];
  [19];
  [20];
  [20];
  [22; 24];
  [22];
  [24];
  [37; 54; 112; 115; 153; 223; 266; 295; 413; 424; 518];
  [37];
  [37];
  [37; 54; 153; 223; 295; 413; 424; 518];
  [39];
  [40];
  [42];
  [43];
  [45; 46; 47];
  [45];
  [46];
  [47];
  [48];
  [49; 342; 527];
  [49];
  [50];
  [51];
  [53; 57; 58; 59; 338];
  [53];
  [54];
  [54];
  [55];
  [56];
  [56];
  [57];
  [58];
  [59];
  [60];
  [62];
  [63];
  [70];
  [72];
  [75];
  [75];
  [76; 78; 178];
  [76; 78; 178];
  [76; 78; 178];
  [76];
  [76; 78; 178];
  [78; 175; 182; 603];
  [78];
  [78];
  [80];
  [81; 149; 174; 181; 183; 184; 201; 207; 218; 219; 221; 223; 247; 297; 298; 302; 304; 308; 309; 310; 312; 316; 317; 318; 319; 320; 321; 322; 323; 324; 325; 326; 327; 328; 329; 330; 335; 347; 353; 360; 365; 366; 402; 410; 411; 422; 424; 507; 509; 510; 516; 518; 568; 574; 591; 620; 624; 626];
  [81; 127; 149; 174; 181; 183; 184; 201; 207; 218; 219; 221; 223; 247; 297; 298; 302; 304; 308; 309; 310; 312; 316; 317; 318; 319; 320; 321; 322; 323; 324; 325; 326; 327; 328; 329; 330; 335; 347; 353; 360; 365; 366; 402; 410; 411; 422; 424; 507; 509; 510; 516; 518; 568; 574; 591; 620; 624; 626];
  [81; 127; 149; 174; 181; 183; 184; 201; 207; 218; 219; 221; 223; 247; 297; 298; 302; 304; 308; 309; 310; 312; 316; 317; 318; 319; 320; 321; 322; 323; 324; 325; 326; 327; 328; 329; 330; 335; 347; 353; 360; 365; 366; 402; 410; 411; 422; 424; 507; 509; 510; 516; 518; 568; 574; 591; 620; 624; 626];
  [81; 207; 335; 347];
  [81; 149; 174; 181; 183; 184; 201; 207; 218; 219; 221; 223; 247; 297; 298; 302; 304; 308; 309; 310; 312; 316; 317; 318; 319; 320; 321; 322; 323; 324; 325; 326; 327; 328; 329; 330; 335; 347; 353; 360; 365; 366; 402; 410; 411; 422; 424; 507; 509; 510; 516; 518; 568; 574; 591; 620; 624; 626];
  [81; 149; 174; 181; 183; 184; 201; 207; 218; 219; 221; 223; 247; 297; 298; 302; 304; 308; 309; 310; 312; 316; 317; 318; 319; 320; 321; 322; 323; 324; 325; 326; 327; 328; 329; 330; 335; 347; 353; 360; 365; 366; 402; 410; 411; 422; 424; 507; 509; 510; 516; 518; 568; 574; 591; 620; 624; 626];
  [81; 127; 149; 174; 181; 183; 184; 201; 207; 218; 219; 221; 223; 247; 297; 298; 302; 304; 308; 309; 310; 312; 316; 317; 318; 319; 320; 321; 322; 323; 324; 325; 326; 327; 328; 329; 330; 335; 347; 353; 360; 365; 366; 402; 410; 411; 422; 424; 507; 509; 510; 516; 518; 568; 574; 591; 620; 624; 626];
  [81; 149; 174; 181; 183; 184; 201; 207; 218; 219; 221; 223; 247; 297; 298; 302; 304; 308; 309; 310; 312; 316; 317; 318; 319; 320; 321; 322; 323; 324; 325; 326; 327; 328; 329; 330; 335; 347; 353; 360; 365; 366; 402; 410; 411; 422; 424; 507; 509; 510; 516; 518; 568; 574; 591; 620; 624; 626];
  [81; 149; 174; 181; 183; 184; 201; 207; 218; 219; 221; 223; 247; 297; 298; 302; 304; 308; 309; 310; 312; 316; 317; 318; 319; 320; 321; 322; 323; 324; 325; 326; 327; 328; 329; 330; 335; 347; 353; 360; 365; 366; 402; 410; 411; 422; 424; 507; 509; 510; 516; 518; 568; 574; 591; 620; 624; 626];
  [81; 201; 207; 335; 347];
  [81; 149; 174; 181; 183; 184; 201; 207; 218; 219; 221; 223; 247; 297; 298; 302; 304; 308; 309; 310; 312; 316; 317; 318; 319; 320; 321; 322; 323; 324; 325; 326; 327; 328; 329; 330; 335; 347; 353; 360; 365; 366; 402; 410; 411; 422; 424; 507; 509; 510; 516; 518; 568; 574; 591; 620; 624; 626];
  [81];
  [81];
  [81; 335; 347];
  [81; 207; 335; 347];
  [81; 201; 207; 335; 347];
  [81; 149; 174; 181; 183; 184; 201; 207; 218; 219; 221; 223; 247; 297; 298; 302; 304; 308; 309; 310; 312; 316; 317; 318; 319; 320; 321; 322; 323; 324; 325; 326; 327; 328; 329; 330; 335; 347; 353; 360; 365; 366; 402; 410; 411; 422; 424; 507; 509; 510; 516; 518; 568; 574; 591; 620; 624; 626];
  [81; 149; 174; 181; 183; 184; 201; 207; 218; 219; 221; 223; 247; 297; 298; 302; 304; 308; 309; 310; 312; 316; 317; 318; 319; 320; 321; 322; 323; 324; 325; 326; 327; 328; 329; 330; 335; 347; 353; 360; 365; 366; 402; 410; 411; 422; 424; 507; 509; 510; 516; 518; 568; 574; 591; 620; 624; 626];
  [81; 149; 174; 181; 183; 184; 201; 207; 218; 219; 221; 223; 247; 297; 298; 302; 304; 308; 309; 310; 312; 316; 317; 318; 319; 320; 321; 322; 323; 324; 325; 326; 327; 328; 329; 330; 335; 347; 353; 360; 365; 366; 402; 410; 411; 422; 424; 507; 509; 510; 516; 518; 568; 574; 591; 620; 624; 626];
  [81; 127; 149; 174; 181; 183; 184; 201; 207; 218; 219; 221; 223; 247; 297; 298; 302; 304; 308; 309; 310; 312; 316; 317; 318; 319; 320; 321; 322; 323; 324; 325; 326; 327; 328; 329; 330; 335; 347; 353; 360; 365; 366; 402; 410; 411; 422; 424; 507; 509; 510; 516; 518; 568; 574; 591; 620; 624; 626];
  [81; 149; 174; 181; 183; 184; 201; 207; 218; 219; 221; 223; 247; 297; 298; 302; 304; 308; 309; 310; 312; 316; 317; 318; 319; 320; 321; 322; 323; 324; 325; 326; 327; 328; 329; 330; 335; 347; 353; 360; 365; 366; 402; 410; 411; 422; 424; 507; 509; 510; 516; 518; 568; 574; 591; 620; 624; 626];
  [81; 149; 174; 181; 183; 184; 201; 207; 218; 219; 221; 223; 247; 297; 298; 302; 304; 308; 309; 310; 312; 316; 317; 318; 319; 320; 321; 322; 323; 324; 325; 326; 327; 328; 329; 330; 335; 347; 353; 360; 365; 366; 402; 410; 411; 422; 424; 507; 509; 510; 516; 518; 568; 574; 591; 620; 624; 626];
  [81; 149; 174; 181; 183; 184; 201; 207; 218; 219; 221; 223; 247; 297; 298; 302; 304; 308; 309; 310; 312; 316; 317; 318; 319; 320; 321; 322; 323; 324; 325; 326; 327; 328; 329; 330; 335; 347; 353; 360; 365; 366; 402; 410; 411; 422; 424; 507; 509; 510; 516; 518; 568; 574; 591; 620; 624; 626];
  [81; 149; 174; 181; 183; 184; 201; 207; 218; 219; 221; 223; 247; 297; 298; 302; 304; 308; 309; 310; 312; 316; 317; 318; 319; 320; 321; 322; 323; 324; 325; 326; 327; 328; 329; 330; 335; 347; 353; 360; 365; 366; 402; 410; 411; 422; 424; 507; 509; 510; 516; 518; 568; 574; 591; 620; 624; 626];
  [82];
  [82];
  [83];
  [84];
  [84];
  [85];
  [86];
  [87; 155; 256; 351];
  [87];
  [89];
  [90; 148; 559];
  [90];
  [91; 248];
  [91];
  [91];
  [92];
  [93];
  [94];
  [95];
  [96; 97; 98; 151; 375];
  [96];
  [97];
  [98];
  [99];
  [100];
  [101];
  [103];
  [104];
  [106];
  [107; 331];
  [107];
  [108; 293; 505];
  [108];
  [112];
  [112; 115; 266];
  [112; 115; 266];
  [112; 115; 266];
  [113];
  [113];
  [114];
  [115];
  [116; 265; 270];
  [116; 265; 270];
  [116];
  [120; 203; 296];
  [120; 203; 296];
  [120; 203; 296];
  [120; 203; 296];
  [120; 203; 296];
  [120; 203; 296];
  [120];
  [120];
  [120];
  [120];
  [120];
  [120];
  [120];
  [120];
  [120];
  [121];
  [122];
  [124];
  [127];
  [127];
  [129];
  [130; 445; 454];
  [144];
  [146];
  [147];
  [147];
  [147];
  [148];
  [149; 174; 181; 183; 184; 218; 219; 221; 223; 247; 297; 298; 302; 304; 308; 309; 310; 312; 316; 317; 318; 319; 320; 321; 322; 323; 324; 325; 326; 327; 328; 329; 330; 353; 360; 365; 366; 402; 410; 411; 422; 424; 507; 509; 510; 516; 518; 568; 574; 591; 620; 624; 626];
  [149; 174; 181; 183; 184; 218; 223; 247; 297; 298; 304; 308; 309; 353; 360; 365; 366; 402; 410; 411; 424; 507; 509; 510; 518; 568; 574; 591; 620; 624; 626];
  [149; 174; 181; 183; 184; 218; 219; 221; 223; 247; 297; 298; 302; 304; 308; 309; 310; 312; 316; 317; 318; 319; 320; 321; 322; 323; 324; 325; 326; 327; 328; 329; 330; 353; 360; 365; 366; 402; 410; 411; 422; 424; 507; 509; 510; 516; 518; 568; 574; 591; 620; 624; 626];
  [149; 174; 181; 183; 184; 218; 219; 221; 223; 247; 297; 298; 302; 304; 308; 309; 310; 312; 316; 317; 318; 319; 320; 321; 322; 323; 324; 325; 326; 327; 328; 329; 330; 353; 360; 365; 366; 402; 410; 411; 422; 424; 507; 509; 510; 516; 518; 568; 574; 591; 620; 624; 626];
  [149; 174; 181; 183; 184; 218; 219; 221; 223; 247; 297; 298; 302; 304; 308; 309; 310; 312; 316; 317; 318; 319; 320; 321; 322; 323; 324; 325; 326; 327; 328; 329; 330; 353; 360; 365; 366; 402; 410; 411; 422; 424; 507; 509; 510; 516; 518; 568; 574; 591; 620; 624; 626];
  [149; 174; 181; 183; 184; 218; 223; 247; 297; 298; 304; 308; 309; 353; 360; 365; 366; 402; 410; 411; 424; 507; 509; 510; 518; 568; 574; 591; 620; 624; 626];
  [149; 174; 181; 183; 184; 218; 219; 221; 223; 247; 297; 298; 302; 304; 308; 309; 310; 312; 316; 317; 318; 319; 320; 321; 322; 323; 324; 325; 326; 327; 328; 329; 330; 353; 360; 365; 366; 402; 410; 411; 422; 424; 507; 509; 510; 516; 518; 568; 574; 591; 620; 624; 626];
  [149; 174; 181; 183; 184; 218; 219; 221; 223; 247; 297; 298; 302; 304; 308; 309; 310; 312; 316; 317; 318; 319; 320; 321; 322; 323; 324; 325; 326; 327; 328; 329; 330; 353; 360; 365; 366; 402; 410; 411; 422; 424; 507; 509; 510; 516; 518; 568; 574; 591; 620; 624; 626];
  [149; 174; 181; 183; 184; 218; 219; 221; 223; 247; 297; 298; 302; 304; 308; 309; 310; 312; 316; 317; 318; 319; 320; 321; 322; 323; 324; 325; 326; 327; 328; 329; 330; 353; 360; 365; 366; 402; 410; 411; 422; 424; 507; 509; 510; 516; 518; 568; 574; 591; 620; 624; 626];
  [149; 174; 181; 183; 184; 218; 219; 221; 223; 247; 297; 298; 302; 304; 308; 309; 310; 312; 316; 317; 318; 319; 320; 321; 322; 323; 324; 325; 326; 327; 328; 329; 330; 353; 360; 365; 366; 402; 410; 411; 422; 424; 507; 509; 510; 516; 518; 568; 574; 591; 620; 624; 626];
  [149];
  [149; 174; 181; 183; 184; 218; 223; 247; 297; 298; 304; 308; 309; 353; 360; 365; 366; 402; 410; 411; 424; 507; 509; 510; 518; 568; 574; 591; 620; 624; 626];
  [149; 174; 181; 183; 184; 218; 219; 221; 223; 247; 297; 298; 302; 304; 308; 309; 310; 312; 316; 317; 318; 319; 320; 321; 322; 323; 324; 325; 326; 327; 328; 329; 330; 353; 360; 365; 366; 402; 410; 411; 422; 424; 507; 509; 510; 516; 518; 568; 574; 591; 620; 624; 626];
  [149; 174; 181; 183; 184; 218; 219; 221; 223; 247; 297; 298; 302; 304; 308; 309; 310; 312; 316; 317; 318; 319; 320; 321; 322; 323; 324; 325; 326; 327; 328; 329; 330; 353; 360; 365; 366; 402; 410; 411; 422; 424; 507; 509; 510; 516; 518; 568; 574; 591; 620; 624; 626];
  [149; 174; 181; 183; 184; 218; 219; 221; 223; 247; 297; 298; 302; 304; 308; 309; 310; 312; 316; 317; 318; 319; 320; 321; 322; 323; 324; 325; 326; 327; 328; 329; 330; 353; 360; 365; 366; 402; 410; 411; 422; 424; 507; 509; 510; 516; 518; 568; 574; 591; 620; 624; 626];
  [149; 174; 181; 183; 184; 218; 223; 247; 297; 298; 304; 308; 309; 353; 360; 365; 366; 402; 410; 411; 424; 507; 509; 510; 518; 568; 574; 591; 620; 624; 626];
  [149; 174; 181; 183; 184; 218; 223; 247; 297; 298; 304; 308; 309; 353; 360; 365; 366; 402; 410; 411; 424; 507; 509; 510; 518; 568; 574; 591; 620; 624; 626];
  [149; 174; 181; 183; 184; 218; 219; 221; 223; 247; 297; 298; 302; 304; 308; 309; 310; 312; 316; 317; 318; 319; 320; 321; 322; 323; 324; 325; 326; 327; 328; 329; 330; 353; 360; 365; 366; 402; 410; 411; 422; 424; 507; 509; 510; 516; 518; 568; 574; 591; 620; 624; 626];
  [149; 174; 181; 183; 184; 218; 223; 247; 297; 298; 304; 308; 309; 353; 360; 365; 366; 402; 410; 411; 424; 507; 509; 510; 518; 568; 574; 591; 620; 624; 626];
  [149; 174; 181; 183; 184; 218; 219; 221; 223; 247; 297; 298; 302; 304; 308; 309; 310; 312; 316; 317; 318; 319; 320; 321; 322; 323; 324; 325; 326; 327; 328; 329; 330; 353; 360; 365; 366; 402; 410; 411; 422; 424; 507; 509; 510; 516; 518; 568; 574; 591; 620; 624; 626];
  [149; 174; 181; 183; 184; 218; 219; 221; 223; 247; 297; 298; 302; 304; 308; 309; 310; 312; 316; 317; 318; 319; 320; 321; 322; 323; 324; 325; 326; 327; 328; 329; 330; 353; 360; 365; 366; 402; 410; 411; 422; 424; 507; 509; 510; 516; 518; 568; 574; 591; 620; 624; 626];
  [149; 174; 181; 183; 184; 218; 219; 221; 223; 247; 297; 298; 302; 304; 308; 309; 310; 312; 316; 317; 318; 319; 320; 321; 322; 323; 324; 325; 326; 327; 328; 329; 330; 353; 360; 365; 366; 402; 410; 411; 422; 424; 507; 509; 510; 516; 518; 568; 574; 591; 620; 624; 626];
  [149; 174; 181; 183; 184; 218; 219; 221; 223; 247; 297; 298; 302; 304; 308; 309; 310; 312; 316; 317; 318; 319; 320; 321; 322; 323; 324; 325; 326; 327; 328; 329; 330; 353; 360; 365; 366; 402; 410; 411; 422; 424; 507; 509; 510; 516; 518; 568; 574; 591; 620; 624; 626];
  [149; 174; 181; 183; 184; 218; 219; 221; 223; 247; 297; 298; 302; 304; 308; 309; 310; 312; 316; 317; 318; 319; 320; 321; 322; 323; 324; 325; 326; 327; 328; 329; 330; 353; 360; 365; 366; 402; 410; 411; 422; 424; 507; 509; 510; 516; 518; 568; 574; 591; 620; 624; 626];
  [149; 174; 181; 183; 184; 218; 219; 221; 223; 247; 297; 298; 302; 304; 308; 309; 310; 312; 316; 317; 318; 319; 320; 321; 322; 323; 324; 325; 326; 327; 328; 329; 330; 353; 360; 365; 366; 402; 410; 411; 422; 424; 507; 509; 510; 516; 518; 568; 574; 591; 620; 624; 626];
  [149; 174; 181; 183; 184; 218; 223; 247; 297; 298; 304; 308; 309; 353; 360; 365; 366; 402; 410; 411; 424; 507; 509; 510; 518; 568; 574; 591; 620; 624; 626];
  [149; 174; 181; 183; 184; 218; 219; 221; 223; 247; 297; 298; 302; 304; 308; 309; 310; 312; 316; 317; 318; 319; 320; 321; 322; 323; 324; 325; 326; 327; 328; 329; 330; 353; 360; 365; 366; 402; 410; 411; 422; 424; 507; 509; 510; 516; 518; 568; 574; 591; 620; 624; 626];
  [149; 174; 181; 183; 184; 218; 219; 221; 223; 247; 297; 298; 302; 304; 308; 309; 310; 312; 316; 317; 318; 319; 320; 321; 322; 323; 324; 325; 326; 327; 328; 329; 330; 353; 360; 365; 366; 402; 410; 411; 422; 424; 507; 509; 510; 516; 518; 568; 574; 591; 620; 624; 626];
  [151];
  [152; 374; 395; 475; 499; 500; 616; 636];
  [152];
  [153];
  [153];
  [154];
  [155];
  [155];
  [158];
  [158];
  [158];
  [162; 163; 164];
  [162; 163; 164];
  [162];
  [163];
  [164];
  [170; 349];
  [170];
  [170];
  [174];
  [174];
  [174; 304; 402; 424; 518; 568; 591; 620];
  [174; 304; 353; 402; 424; 518; 568; 591; 620];
  [175];
  [178];
  [181];
  [181];
  [181; 360];
  [182];
  [183];
  [184];
  [184];
  [185; 276; 364];
  [185];
  [185; 364];
  [185; 364];
  [201];
  [203];
  [207];
  [209];
  [210];
  [211];
  [212; 399];
  [212; 399];
  [212; 399];
  [212; 399];
  [212];
  [212];
  [212; 399];
  [212; 399];
  [213];
  [214];
  [214];
  [215];
  [216];
  [217];
  [218; 299];
  [218];
  [218];
  [219];
  [219; 221; 302; 310; 312; 316; 317; 318; 319; 320; 321; 322; 323; 324; 325; 326; 327; 328; 329; 330; 422; 516];
  [219; 302];
  [220];
  [221];
  [223];
  [223];
  [224; 264; 269; 271; 273; 299; 307; 336; 407; 408; 419; 471; 472; 512; 513; 569; 571; 572; 610; 637; 640];
  [224; 264; 269; 271; 273; 299; 307; 336; 407; 408; 471; 472; 512; 513; 569; 571; 572; 610; 637; 640];
  [225];
  [225; 303; 420; 421; 428; 429; 430; 431; 432; 433; 434; 435; 517; 576];
  [225; 303; 420; 576];
  [225];
  [225];
  [225; 303; 420; 421; 428; 429; 430; 431; 432; 433; 434; 435; 517; 576];
  [225; 303; 305; 420; 421; 428; 429; 430; 431; 432; 433; 434; 435; 436; 437; 438; 439; 440; 441; 517; 576];
  [225; 303; 420; 576];
  [225; 303; 420; 576];
  [225; 303; 420; 576];
  [225; 303; 420; 576];
  [225; 303; 420; 421; 428; 429; 430; 431; 517; 576];
  [225; 303; 420; 421; 428; 429; 430; 431; 517; 576];
  [225; 303; 420; 421; 428; 429; 430; 431; 517; 576];
  [225; 303; 420; 421; 428; 429; 430; 431; 517; 576];
  [225; 303; 420; 421; 428; 429; 430; 431; 432; 433; 434; 435; 517; 576];
  [225; 303; 420; 421; 428; 429; 430; 431; 432; 433; 434; 435; 517; 576];
  [225; 303; 305; 420; 421; 428; 429; 430; 431; 432; 433; 434; 435; 436; 437; 517; 576];
  [225; 303; 305; 420; 421; 428; 429; 430; 431; 432; 433; 434; 435; 436; 437; 517; 576];
  [225; 303; 305; 420; 421; 428; 429; 430; 431; 432; 433; 434; 435; 436; 437; 517; 576];
  [225; 303; 305; 420; 421; 428; 429; 430; 431; 432; 433; 434; 435; 436; 437; 438; 439; 440; 517; 576];
  [225; 303; 305; 420; 421; 427; 428; 429; 430; 431; 432; 433; 434; 435; 436; 437; 438; 439; 440; 441; 517; 576];
  [242];
  [244];
  [244; 480; 498; 548; 563; 564; 625; 647];
  [245];
  [247];
  [248];
  [250];
  [253];
  [254; 339; 453];
  [254; 339];
  [254; 339];
  [254; 339; 453];
  [254];
  [254; 339];
  [256];
  [258];
  [259];
  [259];
  [261];
  [261];
  [261];
  [262; 415; 504; 520; 578; 606; 617; 629];
  [264; 462; 583];
  [264];
  [264];
  [264];
  [265];
  [266];
  [267];
  [269];
  [269];
  [269];
  [270];
  [272];
  [273];
  [274];
  [274];
  [274];
  [274];
  [274];
  [276];
  [278];
  [281];
  [282];
  [284; 373; 508];
  [284; 373; 508];
  [284; 373; 508];
  [284; 373; 508];
  [284; 373; 508];
  [284; 373; 508];
  [284; 373; 508];
  [284; 373; 508];
  [284; 373; 508];
  [284; 373; 508];
  [284; 373; 508];
  [284; 373; 508];
  [284; 373; 508];
  [284; 373; 508];
  [284; 373; 508];
  [284; 373; 508];
  [284; 373; 508];
  [284; 373; 508];
  [284];
  [285];
  [286];
  [287];
  [288];
  [288];
  [292];
  [293];
  [293];
  [294];
  [294];
  [295];
  [296];
  [297];
  [298];
  [299];
  [300];
  [300; 409];
  [300];
  [301];
  [303; 420; 576];
  [304];
  [306];
  [307];
  [308];
  [309];
  [310];
  [312];
  [313; 414];
  [313];
  [314];
  [315];
  [315];
  [316];
  [317];
  [318];
  [319];
  [320];
  [321];
  [322];
  [323];
  [324];
  [325];
  [326];
  [327];
  [328];
  [329];
  [330];
  [331];
  [332];
  [334];
  [335];
  [338];
  [339];
  [340];
  [341];
  [342];
  [343];
  [344];
  [344; 447];
  [347];
  [349];
  [350; 539; 584; 588];
  [350];
  [350];
  [350; 539; 588];
  [350];
  [350; 539; 584; 588];
  [350; 539; 584; 588];
  [350; 539; 588];
  [351];
  [353];
  [355];
  [360];
  [363];
  [363];
  [364];
  [365];
  [366];
  [368];
  [370];
  [371];
  [371; 548];
  [371; 548];
  [371];
  [373];
  [374];
  [375];
  [378];
  [380];
  [380];
  [383];
  [386];
  [391];
  [391];
  [394; 495];
  [394; 495];
  [394; 495];
  [394; 495];
  [394; 495; 601];
  [394];
  [394];
  [394];
  [394];
  [395];
  [396];
  [397];
  [399];
  [401; 566; 567; 622];
  [401];
  [402];
  [403];
  [405];
  [406];
  [407];
  [408];
  [409];
  [409];
  [410];
  [411];
  [413];
  [415];
  [420];
  [422];
  [423];
  [424];
  [424];
  [426];
  [442];
  [445];
  [446];
  [447];
  [453];
  [453];
  [453];
  [454];
  [456];
  [458; 589; 615];
  [458; 589; 615];
  [458; 589; 615];
  [458; 589; 615];
  [458; 589; 615];
  [458; 589; 615];
  [458; 589; 615];
  [458; 589; 615];
  [460];
  [462; 583];
  [462; 583];
  [462];
  [462; 583];
  [464];
  [464];
  [468];
  [473];
  [475];
  [477];
  [479];
  [480];
  [482];
  [483];
  [485];
  [486];
  [487];
  [490];
  [492];
  [493];
  [495];
  [495];
  [498];
  [499];
  [500];
  [502];
  [504];
  [505];
  [505];
  [507];
  [508];
  [509];
  [510];
  [512];
  [513];
  [514];
  [516];
  [518];
  [518];
  [519];
  [520];
  [526];
  [527];
  [530];
  [531];
  [535];
  [536];
  [537];
  [538];
  [539];
  [540];
  [544];
  [548];
  [552];
  [553];
  [553];
  [554];
  [555];
  [556];
  [559];
  [563];
  [564];
  [565];
  [565];
  [566];
  [567];
  [568];
  [569];
  [570];
  [572];
  [574];
  [577];
  [578];
  [583];
  [584];
  [588];
  [590];
  [591];
  [595];
  [601];
  [602];
  [603];
  [606];
  [615];
  [615];
  [616];
  [617];
  [617];
  [618];
  [620];
  [621];
  [621];
  [621];
  [621];
  [621];
  [622];
  [623];
  [624];
  [624];
  [625];
  [626];
  [633];
  [634; 643; 654];
  [634];
  [634; 643; 654];
  [634; 643; 654];
  [634];
  [636];
  [642];
  [642];
  [643];
  [644];
  [644];
  [647];
  [650];
  [654]].

(** Weight of each grammar symbol: every production strictly decreases the total weight. *)
Definition weight_list : list Z := [
  15; 15; 15; 15; 15; 15; 15; 15; 15; 15; 15; 15; 15; 15; 15; 15; 15; 15; 15; 15;
  15; 15; 15; 15; 15; 15; 15; 15; 15; 15; 15; 15; 15; 15; 15; 15; 15; 15; 15; 15;
  15; 15; 15; 15; 15; 15; 15; 15; 15; 15; 15; 15; 15; 15; 15; 15; 15; 15; 15; 15;
  15; 15; 15; 15; 15; 15; 15; 15; 15; 15; 15; 15; 15; 15; 15; 15; 15; 15; 15; 15;
  15; 15; 15; 15; 15; 15; 15; 15; 15; 15; 15; 15; 15; 15; 15; 15; 15; 15; 15; 15;
  15; 15; 15; 15; 15; 15; 15; 15; 15; 15; 15; 15; 15; 15; 15; 15; 15; 15; 15; 15;
  15; 15; 15; 15; 15; 15; 15; 15; 15; 15; 15; 15; 15; 15; 15; 15; 15; 15; 15; 15;
  15; 15; 15; 15; 15; 15; 15; 15; 15; 15; 15; 15; 15; 15; 15; 15; 15; 15; 15; 15;
  15; 15; 15; 15; 15; 15; 15; 15; 15; 15; 15; 15; 15; 15; 15; 15; 15; 15; 15; 15;
  15; 15; 15; 15; 15; 15; 15; 15; 15; 15; 15; 15; 15; 15; 15; 15; 15; 15; 15; 16;
  2; 4; 5; 7; (-1); 13; 14; 13; (-1); 58; 14; 29; 55; 14; 14; (-1); 28; 29; 56; 28;
  64; (-1); 24; 25; 26; 13; (-1); (-1); (-1); 13; 14; 58; 27; 42; (-1); 84; 42; 43; 42; 28;
  52; (-1); 78; 37; 38; 8; 12; 13; 39; 10; 12; 14; (-1); 14; (-1); 5; (-1); 23; (-1); (-1);
  (-1); (-1); 5; 6; (-1); (-1); (-1); (-1); 6; (-1); 9; 10; 11; 7; 9; 10; 11; 24; 33; 32;
  60; 76; 47; 54; 34; 43; (-1); (-1); (-1); 14; 14; 82; 81; 14; 14; 13; 50; 53; 59; 14;
  12; 14; 14; 13; 14; 14; 29; 27; 14; 9; 10; 11; 9; 12; 13; 14; (-1); 13; (-1); 14;
  (-1); (-1); 26; 27; 14; (-1); (-1); 81; 67; 68; 50; (-1); 8; (-1); 14].
